(** Proofs about float.__repr__. *)
From Verif Require Import PyBase PyFacts PyNum Json SpecText SpecFloats FloatFacts VersionFacts TextFacts Repr SpecRepr.
From Coq Require Import SpecFloat.
From Coq Require DecimalN DecimalFacts.
Open Scope list_scope.
Open Scope Z_scope.

(** ** Integers *)
Lemma dec_no_zero : forall n, int_digits (chars (dec n)).
Proof.
  intros n. assert (D := dec_forall_digit n). assert (E := digits_dec n).
  assert (U : N.to_uint n = Decimal.unorm (N.to_uint n)).
  { rewrite <- (DecimalN.Unsigned.to_of (N.to_uint n)). rewrite DecimalN.Unsigned.of_to. auto. }
  unfold dec in *. apply TextFacts.digits_of in D. destruct (N.to_uint n) as [ | u | u | u | u | u | u | u | u | u | u] eqn:En;
    [discriminate | | cbn in D |- *; inversion D; subst; constructor; auto; discriminate .. ].
  (* a leading zero: only the number zero *)
  assert (Hu : u = Decimal.Nil).
  { unfold Decimal.unorm in U. cbn [Decimal.nzhead] in U.
    destruct (Decimal.nzhead u) eqn:Eu; try discriminate U; [injection U; auto | ].
    exfalso. apply (DecimalFacts.nzhead_nonzero u u0). auto. }
  subst u. constructor.
Qed.
Lemma decimal_dec : forall n, decimal_value (chars (dec n)) = n.
Proof.
  intros n. assert (E := digits_dec n). destruct (int_digits_all _ (dec_no_zero n)) as [D N].
  rewrite digits_val_text in E by auto. injection E as E. exact E.
Qed.
Lemma dec_Z_ok : forall z, number_text (chars (dec_Z z)) (VInt z).
Proof.
  intros z. unfold dec_Z. destruct z as [ | p | p].
  - apply nt_plain. exact (ut_int false _ (dec_no_zero 0)).
  - apply nt_plain. assert (H := ut_int false _ (dec_no_zero (Npos p))). cbn iota in H. rewrite decimal_dec in H. exact H.
  - apply (nt_minus (chars (dec (Npos p)))). assert (H := ut_int true _ (dec_no_zero (Npos p))). cbn iota in H. rewrite decimal_dec in H. exact H.
Qed.
Lemma signed_text : forall (s : bool) t v, unsigned_text s t v -> number_text ((if s then ["-"%char] else []) ++ t) v.
Proof. intros [ | ] t v H; [apply nt_minus | apply nt_plain]; auto. Qed.
Lemma digits_dec_all : forall n, Forall digit (chars (dec n)) /\ chars (dec n) <> [].
Proof. intros n. apply int_digits_all, dec_no_zero. Qed.

(** ** The numbers between a number that is read as [f] and [f] are read as [f] *)
Lemma rounds_up_to : forall neg x1 q1 x q f, 0 < q1 -> 0 < q -> rounds neg x1 q1 f -> x1 * q <= x * q1 -> x <= q * size f -> rounds neg x q f.
Proof.
  intros neg x1 q1 x q f H1 H (V & N & Sg & R) L U. repeat split; auto; [ | ]; destruct (R g) as [R1 R2]; auto; revert R1 R2; generalize (size f) (size g) U; clear - H H1 L; intros F G U R1 R2.
  - assert (x1 <= q1 * F) by nia. rewrite (Z.abs_neq (x - q * F)) by lia. rewrite (Z.abs_neq (x1 - q1 * F)) in R1 by lia.
    destruct (Z.le_gt_cases F G) as [K | K]; [assert (q * F <= q * G) by nia; lia | ].
    assert (q1 * G < x1). { destruct (Z.lt_ge_cases (q1 * G) x1); auto. rewrite (Z.abs_neq (x1 - q1 * G)) in R1 by lia. nia. }
    rewrite (Z.abs_eq (x1 - q1 * G)) in R1 by lia. assert (q1 * (F + G) <= 2 * x1) by lia. assert (q * (F + G) <= 2 * x) by nia. lia.
  - intros E. assert (x1 <= q1 * F) by nia. rewrite (Z.abs_neq (x - q * F)) in E by lia. rewrite (Z.abs_neq (x1 - q1 * F)) in R1, R2 by lia.
    destruct (Z.le_gt_cases F G) as [K | K].
    { left. destruct (Z.lt_ge_cases F G); [ | lia]. assert (q * F < q * G) by nia. lia. }
    assert (q1 * G < x1). { destruct (Z.lt_ge_cases (q1 * G) x1); auto. rewrite (Z.abs_neq (x1 - q1 * G)) in R1 by lia. nia. }
    rewrite (Z.abs_eq (x1 - q1 * G)) in R1, R2 by lia. assert (q1 * (F + G) <= 2 * x1) by lia. assert (q * (F + G) <= 2 * x) by nia.
    rewrite Z.abs_eq in E by lia. assert (2 * x = q * (F + G)) by lia. apply R2. assert (2 * x1 <= q1 * (F + G)) by nia. lia.
Qed.
Lemma rounds_down_to : forall neg x1 q1 x q f, 0 < q1 -> 0 < q -> rounds neg x1 q1 f -> x * q1 <= x1 * q -> q * size f <= x -> rounds neg x q f.
Proof.
  intros neg x1 q1 x q f H1 H (V & N & Sg & R) L U. repeat split; auto; [ | ]; destruct (R g) as [R1 R2]; auto; revert R1 R2; generalize (size f) (size g) U; clear - H H1 L; intros F G U R1 R2.
  - assert (q1 * F <= x1) by nia. rewrite (Z.abs_eq (x - q * F)) by lia. rewrite (Z.abs_eq (x1 - q1 * F)) in R1 by lia.
    destruct (Z.le_gt_cases G F) as [K | K]; [assert (q * G <= q * F) by nia; lia | ].
    assert (x1 < q1 * G). { destruct (Z.lt_ge_cases x1 (q1 * G)); auto. rewrite (Z.abs_eq (x1 - q1 * G)) in R1 by lia. nia. }
    rewrite (Z.abs_neq (x1 - q1 * G)) in R1 by lia. assert (2 * x1 <= q1 * (F + G)) by lia. assert (2 * x <= q * (F + G)) by nia. lia.
  - intros E. assert (q1 * F <= x1) by nia. rewrite (Z.abs_eq (x - q * F)) in E by lia. rewrite (Z.abs_eq (x1 - q1 * F)) in R1, R2 by lia.
    destruct (Z.le_gt_cases G F) as [K | K].
    { left. destruct (Z.lt_ge_cases G F); [ | lia]. assert (q * G < q * F) by nia. lia. }
    assert (x1 < q1 * G). { destruct (Z.lt_ge_cases x1 (q1 * G)); auto. rewrite (Z.abs_eq (x1 - q1 * G)) in R1 by lia. nia. }
    rewrite (Z.abs_neq (x1 - q1 * G)) in R1, R2 by lia. assert (2 * x1 <= q1 * (F + G)) by lia. assert (2 * x <= q * (F + G)) by nia.
    rewrite Z.abs_neq in E by lia. assert (2 * x = q * (F + G)) by lia. apply R2. assert (q1 * (F + G) <= 2 * x1) by nia. lia.
Qed.

(** ** The next floats are not too close *)
Lemma spacing : forall s m e g, is_float (S754_finite s m e) -> is_float g -> g <> S754_nan -> size g <> size (S754_finite s m e) ->
  size (S754_finite s m e) <= 2 ^ 53 * Z.abs (size g - size (S754_finite s m e)).
Proof.
  intros s m e g Vf Vg Ng D. unfold is_float, valid_binary in Vf. apply canonical_iff in Vf as (R & U & K). cbn [size] in *.
  assert (P : 0 < 2 ^ (e + 1074)) by (apply Z.pow_pos_nonneg; lia). set (t := 2 ^ (e + 1074)) in *.
  assert (M : forall j, size g = j * t -> Zpos m * t <= 2 ^ 53 * Z.abs (size g - Zpos m * t)).
  { intros j E. rewrite E in *. rewrite <- Z.mul_sub_distr_r, Z.abs_mul, (Z.abs_eq t) by lia. assert (j - Zpos m <> 0) by (intros X; apply D; f_equal; lia). nia. }
  destruct g as [sg | sg | | sg mg eg]; [apply (M 0); reflexivity | | congruence | ].
  - apply (M (2 ^ (1024 - e))). cbn [size]. unfold t. rewrite <- Z.pow_add_r by lia. f_equal. lia.
  - unfold is_float, valid_binary in Vg. apply canonical_iff in Vg as (Rg & Ug & Kg). cbn [size] in *. destruct (Z.le_gt_cases e eg) as [L | L].
    + apply (M (Zpos mg * 2 ^ (eg - e))). unfold t. rewrite <- Z.mul_assoc, <- Z.pow_add_r by lia. do 2 f_equal. lia.
    + assert (E : t = 2 * 2 ^ (e - 1 + 1074)). { unfold t. replace (e + 1074) with (1 + (e - 1 + 1074)) by lia. rewrite Z.pow_add_r by lia. reflexivity. }
      assert (G : Zpos mg * 2 ^ (eg + 1074) <= Zpos mg * 2 ^ (e - 1 + 1074)) by (apply Z.mul_le_mono_nonneg_l; [lia | apply Z.pow_le_mono_r; lia]).
      destruct K as [-> | K]; [lia | ]. change (2 ^ 53) with 9007199254740992 in *. change (2 ^ 52) with 4503599627370496 in *.
      revert E G P D. clear M. generalize (Zpos mg * 2 ^ (eg + 1074)) (2 ^ (e - 1 + 1074)). clear - R K Rg Ug U. intros g w -> G P D. rewrite Z.abs_neq; nia.
Qed.

(** ** The number of digits *)
Lemma value_lt : forall l z, Forall digit l -> (fold_left (fun z c => 10 * z + (code c - 48)) l z < (z + 1) * 10 ^ N.of_nat (length l))%N.
Proof.
  induction l as [ | c l IH]; intros z H; cbn [fold_left length]; [rewrite N.pow_0_r; lia | ]. inversion H as [ | ? ? Hc Hl]; subst. specialize (IH (10 * z + (code c - 48))%N Hl).
  rewrite Nat2N.inj_succ, N.pow_succ_r'. unfold digit in Hc. assert (10 * z + (code c - 48) + 1 <= 10 * (z + 1))%N by lia. nia.
Qed.
Lemma value_ge : forall l z, (z * 10 ^ N.of_nat (length l) <= fold_left (fun z c => 10 * z + (code c - 48)) l z)%N.
Proof.
  induction l as [ | c l IH]; intros z; cbn [fold_left length]; [rewrite N.pow_0_r; lia | ]. specialize (IH (10 * z + (code c - 48))%N).
  rewrite Nat2N.inj_succ, N.pow_succ_r'. nia.
Qed.
Lemma digits_of_ok : forall n, 0 < n -> 0 < digits_of n /\ 10 ^ (digits_of n - 1) <= n < 10 ^ digits_of n.
Proof.
  intros n H. unfold digits_of. pose proof (dec_no_zero (Z.to_N n)) as D. pose proof (decimal_dec (Z.to_N n)) as E. unfold decimal_value in E.
  assert (F : Forall digit (chars (dec (Z.to_N n)))) by apply digits_dec_all. revert D E F. generalize (chars (dec (Z.to_N n))). intros l D E F.
  destruct D as [ | c l Hc Nc Hl]; [cbn in E; lia | ]. pose proof (value_lt _ 0%N F) as U. rewrite E in U. cbn [length] in *. rewrite Nat2Z.inj_succ.
  cbn [fold_left] in E. pose proof (value_ge l (10 * 0 + (code c - 48))%N) as L. rewrite E in L.
  assert (K : (1 <= code c - 48)%N). { unfold digit in Hc. destruct (N.eq_dec (code c) 48) as [X | X]; [ | lia]. exfalso. apply Nc. unfold code in X. rewrite <- (ascii_N_embedding c), X. reflexivity. }
  split; [lia | ]. replace (Z.succ (Z.of_nat (length l)) - 1) with (Z.of_N (N.of_nat (length l))) by lia. replace (Z.succ (Z.of_nat (length l))) with (Z.of_N (N.of_nat (S (length l)))) by lia.
  change 10 with (Z.of_N 10). rewrite <- !N2Z.inj_pow. rewrite <- (Z2N.id n) by lia. split; [apply N2Z.inj_le; nia | apply N2Z.inj_lt; lia].
Qed.
Lemma magnitude_ok : forall a b, 0 < a -> 0 < b ->
  let k := magnitude a b in b * 10 ^ Z.max (k - 1) 0 <= a * 10 ^ Z.max (1 - k) 0 /\ a * 10 ^ Z.max (- k) 0 < b * 10 ^ Z.max k 0.
Proof.
  intros a b Ha Hb. unfold magnitude. destruct (Z.leb_spec b a) as [L | L]; cbv zeta.
  - assert (1 <= a / b) by (apply Z.div_le_lower_bound; lia). destruct (digits_of_ok (a / b)) as (K & U & V); [lia | ]. set (k := digits_of (a / b)) in *.
    replace (Z.max (k - 1) 0) with (k - 1) by lia. replace (Z.max (1 - k) 0) with 0 by lia. replace (Z.max (- k) 0) with 0 by lia. replace (Z.max k 0) with k by lia.
    rewrite !Z.mul_1_r. pose proof (Z.mul_div_le a b Hb). pose proof (Z.mul_succ_div_gt a b Hb). split; nia.
  - assert (1 <= (b - 1) / a) by (apply Z.div_le_lower_bound; lia). destruct (digits_of_ok ((b - 1) / a)) as (K & U & V); [lia | ]. set (j := digits_of ((b - 1) / a)) in *.
    replace (Z.max (1 - j - 1) 0) with 0 by lia. replace (Z.max (1 - (1 - j)) 0) with j by lia. replace (Z.max (- (1 - j)) 0) with (j - 1) by lia. replace (Z.max (1 - j) 0) with 0 by lia.
    rewrite !Z.mul_1_r. pose proof (Z.mul_div_le (b - 1) a Ha). pose proof (Z.mul_succ_div_gt (b - 1) a Ha). split; nia.
Qed.
Lemma below_pos : forall e, 0 < below e.
Proof. intros e. unfold below. apply Z.pow_pos_nonneg; lia. Qed.
Lemma shift : forall c x e, x <= e -> above c e * below x = above (c * 10 ^ (e - x)) x * below e.
Proof.
  intros c x e H. unfold above, below. assert (E : 10 ^ Z.max e 0 * 10 ^ Z.max (- x) 0 = 10 ^ (e - x) * 10 ^ Z.max x 0 * 10 ^ Z.max (- e) 0).
  { rewrite <- !Z.pow_add_r by lia. f_equal. lia. }
  generalize (2 ^ 1074). intros t. rewrite <- !Z.mul_assoc, !(Z.mul_comm t), !Z.mul_assoc. f_equal. rewrite <- !Z.mul_assoc. f_equal. rewrite !Z.mul_assoc. exact E.
Qed.
Lemma above_mono : forall c d e, c <= d -> above c e <= above d e.
Proof. intros c d e H. unfold above. apply Z.mul_le_mono_nonneg_r; [apply Z.pow_nonneg; lia | ]. apply Z.mul_le_mono_nonneg_r; [apply Z.pow_nonneg; lia | auto]. Qed.
Lemma reads_back_iff : forall s m e c x, is_float (S754_finite s m e) -> 0 < c -> (reads_back (S754_finite s m e) s c x = true <-> read_as (S754_finite s m e) c x).
Proof.
  intros s m e c x V Hc. unfold reads_back, read_as. pose proof (float_of_decimal_rounds s (Z.to_N c) x) as R. rewrite Z2N.id in R by lia.
  fold (above c x) (below x) in R. cbn [negative]. split.
  - intros E. split; auto. destruct (float_of_decimal s (Z.to_N c) x) as [ | | | s' m' e']; try discriminate. cbn [seqb_float] in E.
    apply andb_true_iff in E as [E E3]. apply andb_true_iff in E as [E1 E2]. apply eqb_prop in E1. apply Pos.eqb_eq in E2. apply Z.eqb_eq in E3. subst. exact R.
  - intros [_ R']. rewrite (rounds_unique _ _ _ _ _ (below_pos x) R R'). cbn. rewrite eqb_reflx, Pos.eqb_refl, Z.eqb_refl. reflexivity.
Qed.

(** ** The search *)
Definition unit_1074 : Z := 2 ^ 1074.
Lemma unit_pos : 0 < unit_1074.
Proof. unfold unit_1074. apply Z.pow_pos_nonneg; lia. Qed.
Lemma above_unit : forall c e, above c e = c * 10 ^ Z.max e 0 * unit_1074.
Proof. reflexivity. Qed.
#[local] Opaque unit_1074.
Lemma ratio : forall s m e, is_float (S754_finite s m e) -> let a := Zpos m * 2 ^ Z.max e 0 in let b := 2 ^ Z.max (- e) 0 in
  0 < a /\ 0 < b /\ a * unit_1074 = b * size (S754_finite s m e).
Proof.
  intros s m e V. cbv zeta. cbn [size]. unfold is_float, valid_binary in V. apply canonical_iff in V as (R & _ & _).
  assert (0 < 2 ^ Z.max e 0) by (apply Z.pow_pos_nonneg; lia). assert (0 < 2 ^ Z.max (- e) 0) by (apply Z.pow_pos_nonneg; lia). split; [lia | ]. split; [lia | ].
  assert (E : 2 ^ Z.max e 0 * unit_1074 = 2 ^ Z.max (- e) 0 * 2 ^ (e + 1074)) by (change unit_1074 with (2 ^ 1074); rewrite <- !Z.pow_add_r by lia; f_equal; lia).
  rewrite <- Z.mul_assoc, E. ring.
Qed.
Lemma place : forall f a b n, 0 < a -> 0 < b -> a * unit_1074 = b * size f -> 0 < n -> let x := magnitude a b - n in
  above (10 ^ (n - 1)) x <= below x * size f < above (10 ^ n) x.
Proof.
  intros f a b n Ha Hb E Hn. destruct (magnitude_ok a b Ha Hb) as [L U]. revert L U. generalize (magnitude a b). intros k L U. cbv zeta. rewrite !above_unit. unfold below.
  pose proof unit_pos as T. revert E T. generalize unit_1074 (size f). intros t S E T.
  assert (P1 : 10 ^ (n - 1) * 10 ^ Z.max (k - n) 0 * 10 ^ Z.max (1 - k) 0 = 10 ^ Z.max (k - 1) 0 * 10 ^ Z.max (- (k - n)) 0) by (rewrite <- !Z.pow_add_r by lia; f_equal; lia).
  assert (P2 : 10 ^ n * 10 ^ Z.max (k - n) 0 * 10 ^ Z.max (- k) 0 = 10 ^ Z.max k 0 * 10 ^ Z.max (- (k - n)) 0) by (rewrite <- !Z.pow_add_r by lia; f_equal; lia).
  assert (Q1 : 0 < 10 ^ Z.max (1 - k) 0) by (apply Z.pow_pos_nonneg; lia). assert (Q2 : 0 < 10 ^ Z.max (- k) 0) by (apply Z.pow_pos_nonneg; lia).
  assert (Q3 : 0 < 10 ^ Z.max (- (k - n)) 0) by (apply Z.pow_pos_nonneg; lia).
  revert P1 P2 L U Q1 Q2 Q3. generalize (10 ^ (n - 1) * 10 ^ Z.max (k - n) 0) (10 ^ n * 10 ^ Z.max (k - n) 0) (10 ^ Z.max (k - 1) 0) (10 ^ Z.max k 0)
    (10 ^ Z.max (- (k - n)) 0) (10 ^ Z.max (1 - k) 0) (10 ^ Z.max (- k) 0). clear - Ha Hb E T. intros u v w z r g h P1 P2 L U Q1 Q2 Q3.
  split.
  - apply (Z.mul_le_mono_pos_r _ _ (b * g)); [nia | ]. replace (u * t * (b * g)) with (u * g * (b * t)) by ring. rewrite P1.
    replace (r * S * (b * g)) with (b * S * (r * g)) by ring. rewrite <- E. replace (w * r * (b * t)) with (b * w * (r * t)) by ring. replace (a * t * (r * g)) with (a * g * (r * t)) by ring.
    apply Z.mul_le_mono_pos_r; auto. nia.
  - apply (Z.mul_lt_mono_pos_r (b * h)); [nia | ]. replace (v * t * (b * h)) with (v * h * (b * t)) by ring. rewrite P2.
    replace (r * S * (b * h)) with (b * S * (r * h)) by ring. rewrite <- E. replace (z * r * (b * t)) with (b * z * (r * t)) by ring. replace (a * t * (r * h)) with (a * h * (r * t)) by ring.
    apply Z.mul_lt_mono_pos_r; auto. nia.
Qed.

Section search.
  Variables (f : float64) (a b k n x X Y q : Z).
  Hypotheses (Ha : 0 < a) (Hb : 0 < b) (E : a * unit_1074 = b * size f) (Hn : 0 < n) (Hx : x = k - n)
    (HX : X = a * 10 ^ Z.max (n - k) 0) (HY : Y = b * 10 ^ Z.max (k - n) 0) (Hq : q = X / Y)
    (Pl : above (10 ^ (n - 1)) x <= below x * size f < above (10 ^ n) x).
  Lemma Y_pos : 0 < Y.
  Proof. rewrite HY. assert (0 < 10 ^ Z.max (k - n) 0) by (apply Z.pow_pos_nonneg; lia). nia. Qed.
  (** Both sides of the comparison with [f], scaled *)
  Lemma scaled_above : forall c, above c x * b = unit_1074 * (c * Y).
  Proof. intros c. rewrite above_unit, HY, Hx. ring. Qed.
  Lemma scaled_below : below x * size f * b = unit_1074 * X.
  Proof.
    unfold below. rewrite HX, Hx. replace (- (k - n)) with (n - k) by lia. replace (10 ^ Z.max (n - k) 0 * size f * b) with (b * size f * 10 ^ Z.max (n - k) 0) by ring. rewrite <- E. ring.
  Qed.
  Lemma le_iff : forall c, above c x <= below x * size f <-> c <= q.
  Proof.
    intros c. pose proof Y_pos as Hy. rewrite (Z.mul_le_mono_pos_r _ _ b Hb), scaled_above, scaled_below.
    rewrite <- Z.mul_le_mono_pos_l by exact unit_pos. rewrite Hq. split; intros H.
    - apply Z.div_le_lower_bound; lia.
    - pose proof (Z.mul_div_le X Y Hy). nia.
  Qed.
  Lemma gap_le : forall c, c <= q -> gap f c x * b = unit_1074 * (X - c * Y).
  Proof. intros c H. apply le_iff in H. unfold gap. rewrite Z.abs_neq by lia. rewrite Z.mul_opp_l, Z.mul_sub_distr_r, scaled_above, scaled_below. ring. Qed.
  Lemma gap_gt : forall c, q < c -> gap f c x * b = unit_1074 * (c * Y - X).
  Proof. intros c H. assert (~ above c x <= below x * size f) by (rewrite le_iff; lia). unfold gap. rewrite Z.abs_eq by lia. rewrite Z.mul_sub_distr_r, scaled_above, scaled_below. ring. Qed.
  Lemma q_range : 10 ^ (n - 1) <= q < 10 ^ n.
  Proof. destruct Pl as [L U]. split; [apply le_iff; auto | ]. destruct (Z.lt_ge_cases q (10 ^ n)) as [ | K]; auto. apply le_iff in K. lia. Qed.
  Lemma q_pos : 0 < q.
  Proof. pose proof q_range. assert (0 < 10 ^ (n - 1)) by (apply Z.pow_pos_nonneg; lia). lia. Qed.
  Lemma ten_pow : 10 ^ n = 10 * 10 ^ (n - 1).
  Proof. replace n with (1 + (n - 1)) at 1 by lia. rewrite Z.pow_add_r by lia. reflexivity. Qed.
  Lemma lower_place : forall c e', c <= 10 ^ n -> e' < x -> above c e' * below x <= above (10 ^ (n - 1)) x * below e'.
  Proof.
    intros c e' Hc K. pose proof (below_pos x) as Px. apply Z.le_trans with (above (10 ^ n) e' * below x); [apply Z.mul_le_mono_pos_r; auto; apply above_mono; auto | ].
    rewrite (shift (10 ^ (n - 1)) e' x) by lia. apply Z.mul_le_mono_pos_r; auto. apply above_mono. rewrite ten_pow, Z.mul_comm.
    apply Z.mul_le_mono_nonneg_l; [apply Z.pow_nonneg; lia | ]. change 10 with (10 ^ 1) at 1. apply Z.pow_le_mono_r; lia.
  Qed.
  (** A number of other exponent *)
  Lemma low : forall c e', c <= 10 ^ n -> above c e' <= below e' * size f -> above c e' * below x <= above q x * below e'.
  Proof.
    intros c e' Hc L. pose proof (below_pos x) as Px. pose proof (below_pos e') as Pe. destruct (Z.le_gt_cases x e') as [K | K].
    - rewrite (shift c x e' K). apply Z.mul_le_mono_pos_r; auto. apply above_mono. apply le_iff. apply (Z.mul_le_mono_pos_r _ _ (below e') Pe). rewrite <- (shift c x e' K). nia.
    - apply Z.le_trans with (above (10 ^ (n - 1)) x * below e'); [apply lower_place; auto | apply Z.mul_le_mono_pos_r; auto; apply above_mono, q_range].
  Qed.
  Lemma high : forall c e', c <= 10 ^ n -> below e' * size f < above c e' -> above (q + 1) x * below e' <= above c e' * below x.
  Proof.
    intros c e' Hc L. pose proof (below_pos x) as Px. pose proof (below_pos e') as Pe. destruct (Z.le_gt_cases x e') as [K | K].
    - rewrite (shift c x e' K). apply Z.mul_le_mono_pos_r; auto. apply above_mono.
      destruct (Z.le_gt_cases (q + 1) (c * 10 ^ (e' - x))) as [ | G]; auto. exfalso. assert (G' : c * 10 ^ (e' - x) <= q) by lia. apply le_iff in G'.
      apply (Z.mul_le_mono_pos_r _ _ (below e') Pe) in G'. rewrite <- (shift c x e' K) in G'. nia.
    - exfalso. pose proof (lower_place c e' Hc K) as A. destruct Pl as [L' _]. nia.
  Qed.
  Lemma read_low : forall c e', read_as f c e' -> c <= 10 ^ n -> above c e' <= below e' * size f -> read_as f q x.
  Proof.
    intros c e' [Pc R] Hc L. split; [apply q_pos | ]. apply (rounds_up_to _ _ _ _ _ _ (below_pos e') (below_pos x) R); [apply low; auto | ]. apply le_iff. lia.
  Qed.
  Lemma read_high : forall c e', read_as f c e' -> c <= 10 ^ n -> below e' * size f < above c e' -> read_as f (q + 1) x.
  Proof.
    intros c e' [Pc R] Hc L. split; [pose proof q_pos; lia | ]. apply (rounds_down_to _ _ _ _ _ _ (below_pos e') (below_pos x) R); [apply high; auto | ].
    assert (~ above (q + 1) x <= below x * size f) by (rewrite le_iff; lia). lia.
  Qed.
  (** The distances of the two candidates *)
  Lemma mod_eq : X mod Y = X - q * Y.
  Proof. pose proof Y_pos. rewrite Hq, Z.mod_eq by lia. ring. Qed.
  Lemma gap_low : forall c e', c <= 10 ^ n -> above c e' <= below e' * size f -> gap f q x * below e' <= gap f c e' * below x.
  Proof.
    intros c e' Hc L. pose proof (low c e' Hc L) as K. unfold gap. assert (above q x <= below x * size f) by (apply le_iff; lia). rewrite !Z.abs_neq by lia. lia.
  Qed.
  Lemma gap_high : forall c e', c <= 10 ^ n -> below e' * size f < above c e' -> gap f (q + 1) x * below e' <= gap f c e' * below x.
  Proof.
    intros c e' Hc L. pose proof (high c e' Hc L) as K. unfold gap. assert (~ above (q + 1) x <= below x * size f) by (rewrite le_iff; lia). rewrite !Z.abs_eq by lia. lia.
  Qed.
  (** The better of the two candidates *)
  Variable r : Z.
  Hypotheses (Hr : r = q \/ r = q + 1) (Rr : read_as f r x)
    (Near : (read_as f q x -> gap f r x <= gap f q x) /\ (read_as f (q + 1) x -> gap f r x <= gap f (q + 1) x))
    (Even : read_as f q x -> read_as f (q + 1) x -> gap f q x = gap f (q + 1) x -> Z.even r = true).
  Lemma best_of : (forall c e', read_as f c e' -> 10 ^ (n - 1) <= c) -> best f n r x.
  Proof.
    intros Short. pose proof q_range as Q. constructor; auto.
    - lia.
    - intros c e' R Hc. pose proof (below_pos e') as Pe. destruct (Z.le_gt_cases (above c e') (below e' * size f)) as [L | L].
      + apply Z.le_trans with (gap f q x * below e'); [ | apply gap_low; auto]. apply Z.mul_le_mono_pos_r; auto. apply (proj1 Near). eapply read_low; eauto.
      + apply Z.le_trans with (gap f (q + 1) x * below e'); [ | apply gap_high; auto]. apply Z.mul_le_mono_pos_r; auto. apply (proj2 Near). eapply read_high; eauto.
    - intros c R G. pose proof Y_pos as Hy. pose proof unit_pos as Hu.
      destruct (Z.le_gt_cases c q) as [L | L].
      + assert (R1 : read_as f q x). { destruct (Z.eq_dec c q) as [<- | D]; auto. destruct R as [Pc R]. split; [apply q_pos | ].
          apply (rounds_up_to _ _ _ _ _ _ (below_pos x) (below_pos x) R); [apply Z.mul_le_mono_pos_r; [apply below_pos | apply above_mono; lia] | apply le_iff; lia]. }
        pose proof (proj1 Near R1) as N1. pose proof (gap_le c L) as G1. pose proof (gap_le q (Z.le_refl q)) as G2.
        assert (c = q). { rewrite <- G in N1. apply (Z.mul_le_mono_pos_r _ _ b Hb) in N1. rewrite G1, G2 in N1. apply Z.mul_le_mono_pos_l in N1; auto. nia. }
        subst c. destruct Hr as [Er | Er]; [try (left; congruence); right; apply Even; auto; congruence | try (left; congruence); right; apply Even; auto; congruence].
      + assert (R1 : read_as f (q + 1) x). { destruct (Z.eq_dec c (q + 1)) as [<- | D]; auto. destruct R as [Pc R]. split; [pose proof q_pos; lia | ].
          apply (rounds_down_to _ _ _ _ _ _ (below_pos x) (below_pos x) R); [apply Z.mul_le_mono_pos_r; [apply below_pos | apply above_mono; lia] | ].
          assert (~ above (q + 1) x <= below x * size f) by (rewrite le_iff; lia). lia. }
        pose proof (proj2 Near R1) as N1. pose proof (gap_gt c L) as G1. pose proof (gap_gt (q + 1) ltac:(lia)) as G2.
        assert (c = q + 1). { rewrite <- G in N1. apply (Z.mul_le_mono_pos_r _ _ b Hb) in N1. rewrite G1, G2 in N1. apply Z.mul_le_mono_pos_l in N1; auto. nia. }
        subst c. destruct Hr as [Er | Er]; [try (left; congruence); right; apply Even; auto; congruence | try (left; congruence); right; apply Even; auto; congruence].
  Qed.
End search.
Lemma some_pair : forall A B (u r : A) (v x : B), Some (u, v) = Some (r, x) -> u = r /\ v = x.
Proof. intros A B u r v x H. injection H as -> ->. auto. Qed.
Section candidates.
  Variables (s : bool) (m : positive) (e : Z).
  Let f := S754_finite s m e.
  Hypothesis V : is_float f.
  Variables (a b k : Z).
  Hypotheses (Da : a = Zpos m * 2 ^ Z.max e 0) (Db : b = 2 ^ Z.max (- e) 0) (Dk : k = magnitude a b).
  Lemma here : 0 < a /\ 0 < b /\ a * unit_1074 = b * size f.
  Proof. rewrite Da, Db. apply ratio. exact V. Qed.
  Lemma here_place : forall n, 0 < n -> above (10 ^ (n - 1)) (k - n) <= below (k - n) * size f < above (10 ^ n) (k - n).
  Proof. intros n Hn. destruct here as (Ha & Hb & E). rewrite Dk. apply place; auto. Qed.
  Lemma with_digits_none : forall n, 0 < n -> with_digits f s a b k n = None -> forall c x, read_as f c x -> c <= 10 ^ n -> False.
  Proof.
    intros n Hn W c x R Hc. destruct here as (Ha & Hb & E). pose proof (here_place n Hn) as Pl. unfold with_digits in W. cbv zeta in W.
    set (X := a * 10 ^ Z.max (n - k) 0) in *. set (Y := b * 10 ^ Z.max (k - n) 0) in *. set (q := X / Y) in *.
    pose proof (q_pos f a b k n (k - n) X Y q Hb E Hn eq_refl eq_refl eq_refl eq_refl Pl) as Hq.
    destruct (Z.le_gt_cases (above c x) (below x * size f)) as [L | L].
    - apply (read_low f a b k n (k - n) X Y q Hb E Hn eq_refl eq_refl eq_refl eq_refl Pl c x R Hc) in L. apply reads_back_iff in L; auto. fold f in L. rewrite L in W.
      destruct (reads_back f s (q + 1) (k - n)); discriminate.
    - apply (read_high f a b k n (k - n) X Y q Hb E Hn eq_refl eq_refl eq_refl eq_refl Pl c x R Hc) in L. apply reads_back_iff in L; auto; [ | lia]. fold f in L. rewrite L in W.
      destruct (reads_back f s q (k - n)); discriminate.
  Qed.
  Lemma with_digits_some : forall n r x, 0 < n -> with_digits f s a b k n = Some (r, x) -> (forall c e', read_as f c e' -> 10 ^ (n - 1) <= c) -> best f n r x.
  Proof.
    intros n r x Hn W Short. destruct here as (Ha & Hb & E). pose proof (here_place n Hn) as Pl. unfold with_digits in W. cbv zeta in W.
    set (X := a * 10 ^ Z.max (n - k) 0) in *. set (Y := b * 10 ^ Z.max (k - n) 0) in *. set (q := X / Y) in *.
    pose proof (q_pos f a b k n (k - n) X Y q Hb E Hn eq_refl eq_refl eq_refl eq_refl Pl) as Hq.
    assert (M : X mod Y = X - q * Y) by exact (mod_eq b k n (k - n) X Y q Hb Hn eq_refl eq_refl eq_refl). rewrite M in W.
    pose proof (gap_le f a b k n (k - n) X Y q Hb E Hn eq_refl eq_refl eq_refl eq_refl q (Z.le_refl q)) as G1.
    pose proof (gap_gt f a b k n (k - n) X Y q Hb E Hn eq_refl eq_refl eq_refl eq_refl (q + 1) ltac:(lia)) as G2.
    pose proof (reads_back_iff s m e q (k - n) V Hq) as I1. pose proof (reads_back_iff s m e (q + 1) (k - n) V ltac:(lia)) as I2. fold f in I1, I2.
    assert (Cmp : forall u v, gap f u (k - n) * b <= gap f v (k - n) * b -> gap f u (k - n) <= gap f v (k - n)) by (intros u v H; apply (Z.mul_le_mono_pos_r _ _ b Hb); auto).
    pose proof unit_pos as Up.
    destruct (reads_back f s q (k - n)) eqn:E1, (reads_back f s (q + 1) (k - n)) eqn:E2; try discriminate; apply some_pair in W as [Wr Wx]; subst x;
      apply (best_of f a b k n (k - n) X Y q Hb E Hn eq_refl eq_refl eq_refl eq_refl Pl r); auto.
    - destruct (_ || _)%bool in Wr; auto.
    - destruct (_ || _)%bool in Wr; subst r; [apply I1 | apply I2]; auto.
    - destruct ((2 * (X - q * Y) <? Y) || (2 * (X - q * Y) =? Y) && Z.even q)%bool eqn:C; rewrite ?C in Wr; subst r.
      + split; [intros _; apply Z.le_refl | intros _]. apply Cmp. rewrite G1, G2. apply Z.mul_le_mono_pos_l; auto. apply orb_true_iff in C as [C | C]; [apply Z.ltb_lt in C; lia | ].
        apply andb_true_iff in C as [C _]. apply Z.eqb_eq in C. lia.
      + split; [intros _ | intros _; apply Z.le_refl]. apply Cmp. rewrite G1, G2. apply Z.mul_le_mono_pos_l; auto. apply orb_false_iff in C as [C _]. apply Z.ltb_ge in C. lia.
    - intros _ _ G. assert (G' : unit_1074 * (X - q * Y) = unit_1074 * ((q + 1) * Y - X)) by congruence. apply Z.mul_cancel_l in G'; [ | lia].
      assert (T : 2 * (X - q * Y) = Y) by lia. destruct ((2 * (X - q * Y) <? Y) || (2 * (X - q * Y) =? Y) && Z.even q)%bool eqn:C; rewrite ?C in Wr; subst r.
      + apply orb_true_iff in C as [C | C]; [apply Z.ltb_lt in C; lia | ]. apply andb_true_iff in C as [_ C]. auto.
      + apply orb_false_iff in C as [_ C]. rewrite T, Z.eqb_refl in C. cbn in C. rewrite Z.even_add, C. reflexivity.
    - rewrite <- Wr. apply I1. auto.
    - split; intros H; [rewrite Wr; apply Z.le_refl | ]. apply I2 in H. discriminate.
    - intros _ H. apply I2 in H. discriminate.
    - rewrite <- Wr. apply I2. auto.
    - split; intros H; [ | rewrite Wr; apply Z.le_refl]. apply I1 in H. discriminate.
    - intros H. apply I1 in H. discriminate.
  Qed.
  (** Seventeen digits are enough. *)
  Lemma seventeen : exists c, c <= 10 ^ 17 /\ read_as f c (k - 17).
  Proof.
    destruct here as (Ha & Hb & E). pose proof (here_place 17 ltac:(lia)) as Pl. set (x := k - 17) in *.
    set (X := a * 10 ^ Z.max (17 - k) 0). set (Y := b * 10 ^ Z.max x 0). set (q := X / Y).
    assert (Hn : 0 < 17) by lia.
    pose proof (q_pos f a b k 17 x X Y q Hb E Hn eq_refl eq_refl eq_refl eq_refl Pl) as Hq.
    pose proof (q_range f a b k 17 x X Y q Hb E Hn eq_refl eq_refl eq_refl eq_refl Pl) as Rq.
    pose proof (gap_le f a b k 17 x X Y q Hb E Hn eq_refl eq_refl eq_refl eq_refl q (Z.le_refl q)) as G1.
    pose proof (gap_gt f a b k 17 x X Y q Hb E Hn eq_refl eq_refl eq_refl eq_refl (q + 1) ltac:(lia)) as G2.
    pose proof unit_pos as Up. pose proof (below_pos x) as Pb.
    assert (R : forall c, 0 < c -> 2 * (gap f c x * b) <= unit_1074 * Y -> read_as f c x).
    { intros c Hc G. split; auto. split; [exact V | ]. split; [discriminate | ]. split; [reflexivity | ]. intros g Vg Ng.
      destruct (Z.eq_dec (size g) (size f)) as [D | D]; [rewrite D; split; [lia | auto] | ].
      pose proof (spacing s m e g V Vg Ng D) as Sp. fold f in Sp.
      assert (K : 2 * gap f c x < below x * Z.abs (size g - size f)).
      { assert (G' : 2 * gap f c x <= 10 ^ Z.max x 0 * unit_1074). { unfold Y in G. apply (Z.mul_le_mono_pos_r _ _ b Hb). lia. }
        destruct Pl as [Pl _]. rewrite above_unit in Pl. change (10 ^ (17 - 1)) with 10000000000000000 in Pl. change (2 ^ 53) with 9007199254740992 in Sp.
        assert (P : 0 < Z.abs (size g - size f)) by lia. rewrite <- Z.mul_assoc in Pl. revert Sp G' Pl P Pb.
        generalize (Z.abs (size g - size f)). intros w. generalize (10 ^ Z.max x 0 * unit_1074) (size f) (below x) (gap f c x). clear. intros u S B h Sp G' Pl P Pb.
        assert (B * S <= B * (9007199254740992 * w)) by (apply Z.mul_le_mono_nonneg_l; lia). assert (0 < B * w) by nia. lia. }
      unfold gap in K. assert (L : Z.abs (above c x - below x * size f) < Z.abs (above c x - below x * size g)).
      { assert (below x * Z.abs (size g - size f) <= Z.abs (above c x - below x * size f) + Z.abs (above c x - below x * size g)); [ | lia].
        rewrite <- (Z.abs_eq (below x)) at 1 by lia. rewrite <- Z.abs_mul. lia. }
      split; lia. }
    assert (D : 2 * (X - q * Y) <= Y \/ 2 * ((q + 1) * Y - X) <= Y) by lia.
    destruct D as [D | D].
    - exists q. split; [lia | ]. apply R; auto. rewrite G1. nia.
    - exists (q + 1). split; [lia | ]. apply R; [lia | ]. rewrite G2. nia.
  Qed.
End candidates.
Lemma first_some_search : forall s m e a b k, is_float (S754_finite s m e) -> a = Zpos m * 2 ^ Z.max e 0 -> b = 2 ^ Z.max (- e) 0 -> k = magnitude a b ->
  forall j n, 0 < n -> n + Z.of_nat j = 18 -> n = 1 \/ with_digits (S754_finite s m e) s a b k (n - 1) = None ->
  exists i q x, first_some (with_digits (S754_finite s m e) s a b k) (map (fun i => n + Z.of_nat i) (seq 0 j)) = Some (q, x) /\ best (S754_finite s m e) i q x.
Proof.
  intros s m e a b k V Da Db Dk. induction j as [ | j IH]; intros n Hn E P.
  - exfalso. destruct (seventeen s m e V a b k Da Db Dk) as (c & Hc & R). destruct P as [P | P]; [lia | ]. replace (n - 1) with 17 in P by lia.
    exact (with_digits_none s m e V a b k Da Db Dk 17 ltac:(lia) P c (k - 17) R Hc).
  - cbn [seq map first_some]. replace (n + Z.of_nat 0) with n by lia. destruct (with_digits (S754_finite s m e) s a b k n) as [[q x] | ] eqn:W.
    + exists n, q, x. split; auto. apply (with_digits_some s m e V a b k Da Db Dk n q x Hn W). intros c e' R. destruct P as [-> | P]; [destruct R; cbn; lia | ].
      destruct (Z.le_gt_cases (10 ^ (n - 1)) c) as [ | L]; auto. exfalso. destruct (Z.eq_dec n 1) as [-> | D]; [destruct R; cbn in L; lia | ].
      exact (with_digits_none s m e V a b k Da Db Dk (n - 1) ltac:(lia) P c e' R ltac:(lia)).
    + rewrite <- seq_shift, map_map. destruct (IH (n + 1)) as (i & q & x & F & B); [lia | lia | right; replace (n + 1 - 1) with n by lia; auto | ].
      exists i, q, x. split; auto. rewrite <- F. f_equal. apply map_ext. intros y. lia.
Qed.
Theorem shortest_best : forall s m e, is_float (S754_finite s m e) -> exists n, best (S754_finite s m e) n (fst (shortest s m e)) (snd (shortest s m e)).
Proof.
  intros s m e V. unfold shortest.
  destruct (first_some_search s m e _ _ _ V eq_refl eq_refl eq_refl 17%nat 1 ltac:(lia) ltac:(lia) (or_introl eq_refl)) as (n & q & x & F & B).
  change (map (fun i => 1 + Z.of_nat i) (seq 0 17)) with [1; 2; 3; 4; 5; 6; 7; 8; 9; 10; 11; 12; 13; 14; 15; 16; 17] in F. rewrite F. exists n. exact B.
Qed.
(** There is one way. *)
Lemma read_same : forall f c e c' e', read_as f c e -> 0 < c' -> above c' e' * below e = above c e * below e' -> read_as f c' e'.
Proof.
  intros f c e c' e' [Hc R] Hc' E. split; auto. destruct (Z.le_gt_cases (above c' e') (below e' * size f)) as [L | L].
  - apply (rounds_up_to _ _ _ _ _ _ (below_pos e) (below_pos e') R); lia.
  - apply (rounds_down_to _ _ _ _ _ _ (below_pos e) (below_pos e') R); lia.
Qed.
Lemma best_digits : forall f n q x n' q' x', best f n q x -> best f n' q' x' -> n <= n'.
Proof.
  intros f n q x n' q' x' B B'. destruct (Z.le_gt_cases n n') as [ | L]; auto. exfalso. destruct B as [[Hn _] _ _ Short _ _], B' as [[Hn' _] R' [_ U'] _ _ _].
  pose proof (Short _ _ R') as S1. assert (10 ^ n' <= 10 ^ (n - 1)) by (apply Z.pow_le_mono_r; lia). assert (E : q' = 1 * 10 ^ n') by lia.
  assert (R : read_as f 1 (x' + n')).
  { apply (read_same f q' x' 1 (x' + n') R'); [lia | ]. rewrite (shift 1 x' (x' + n')) by lia. replace (x' + n' - x') with n' by lia. rewrite <- E. auto. }
  apply Short in R. assert (10 ^ 1 <= 10 ^ (n - 1)) by (apply Z.pow_le_mono_r; lia). lia.
Qed.
Lemma best_exponent : forall f n q x q' x', best f n q x -> best f n q' x' -> x <= x'.
Proof.
  intros f n q x q' x' B B'. destruct (Z.le_gt_cases x x') as [ | L]; auto. exfalso. destruct B as [[Hn [P _]] _ _ _ _ _], B' as [[_ [_ P']] _ _ _ _ _].
  pose proof (below_pos x) as Px. pose proof (below_pos x') as Px'.
  assert (K : above (10 ^ n) x' * below x <= above (10 ^ (n - 1)) x * below x').
  { rewrite (shift (10 ^ (n - 1)) x' x) by lia. apply Z.mul_le_mono_pos_r; auto. apply above_mono. rewrite <- Z.pow_add_r by lia. apply Z.pow_le_mono_r; lia. }
  nia.
Qed.
Lemma gap_inside : forall f c c' x, c < c' - 1 -> gap f c x = gap f c' x -> gap f (c + 1) x < gap f c x.
Proof.
  intros f c c' x L G. unfold gap in *. assert (A : forall c, above (c + 1) x = above c x + above 1 x) by (intros; unfold above; ring).
  assert (P : 0 < above 1 x) by (unfold above; rewrite Z.mul_1_l; apply Z.mul_pos_pos; apply Z.pow_pos_nonneg; lia).
  assert (M : above (c + 1 + 1) x <= above c' x) by (apply above_mono; lia). rewrite !A in *. revert G M P. generalize (above c x) (above c' x) (above 1 x) (below x * size f). intros. lia.
Qed.
Theorem best_one : forall f n q x n' q' x', best f n q x -> best f n' q' x' -> q = q' /\ x = x'.
Proof.
  intros f n q x n' q' x' B B'. assert (n = n') by (apply Z.le_antisymm; [exact (best_digits _ _ _ _ _ _ _ B B') | exact (best_digits _ _ _ _ _ _ _ B' B)]). subst n'.
  assert (x = x') by (apply Z.le_antisymm; [exact (best_exponent _ _ _ _ _ _ B B') | exact (best_exponent _ _ _ _ _ _ B' B)]). subst x'. split; auto.
  assert (K : forall q q', best f n q x -> best f n q' x -> q < q' -> False).
  { clear. intros q q' B B' L. destruct B as [_ R [_ U] _ N Ev], B' as [_ R' [_ U'] _ N' Ev']. pose proof (below_pos x) as Px.
    assert (G : gap f q x = gap f q' x). { pose proof (N _ _ R' U') as N1. pose proof (N' _ _ R U) as N2. apply Z.mul_le_mono_pos_r in N1, N2; auto. lia. }
    destruct (Ev _ R' (eq_sym G)) as [ | E]; [lia | ]. destruct (Ev' _ R G) as [ | E']; [lia | ].
    assert (q <> q' - 1). { intros ->. rewrite Z.even_sub, E' in E. discriminate. }
    pose proof (gap_inside f q q' x ltac:(lia) G) as I. assert (Rn : read_as f (q + 1) x).
    { destruct R as [Hq R], R' as [Hq' R']. split; [lia | ]. assert (above q x <= above (q + 1) x) by (apply above_mono; lia). assert (above (q + 1) x <= above q' x) by (apply above_mono; lia).
      destruct (Z.le_gt_cases (above (q + 1) x) (below x * size f)).
      - apply (rounds_up_to _ _ _ _ _ _ Px Px R); [nia | lia].
      - apply (rounds_down_to _ _ _ _ _ _ Px Px R'); [nia | lia]. }
    pose proof (N _ _ Rn ltac:(lia)) as N1. apply Z.mul_le_mono_pos_r in N1; auto. lia. }
  destruct (Z.lt_total q q') as [L | [L | L]]; auto; exfalso; eauto.
Qed.

(** ** The layout *)
Lemma trim_zeros_at : forall d c j, c <> "0"%char -> trim_zeros (d ++ c :: repeat "0"%char j) = d ++ [c].
Proof.
  intros d c j H. assert (Z : trim_zeros (repeat "0"%char j) = []) by (induction j as [ | j IH]; cbn [repeat trim_zeros]; [ | rewrite IH]; auto).
  induction d as [ | a d IH]; cbn [app trim_zeros].
  - rewrite Z. destruct (Ascii.eqb_spec c "0"); [congruence | auto].
  - rewrite IH. destruct d; auto.
Qed.
Lemma last_digit : forall l, (exists c, In c l /\ c <> "0"%char) -> exists d c j, l = d ++ c :: repeat "0"%char j /\ c <> "0"%char.
Proof.
  induction l as [ | a l IH]; intros (c & H & N); [destruct H | ]. destruct (Exists_dec (fun c => c <> "0"%char) l) as [E | E].
  { intros x. destruct (ascii_dec x "0"); [right | left]; auto. }
  - apply Exists_exists in E. destruct (IH E) as (d & c' & j & -> & N'). exists (a :: d), c', j. auto.
  - assert (Z : l = repeat "0"%char (length l)).
    { clear - E. induction l as [ | x l IH]; auto. cbn. f_equal; [ | apply IH; intros K; apply E; right; auto]. destruct (ascii_dec x "0"); auto. destruct E. left. auto. }
    destruct H as [<- | H]; [ | destruct E; apply Exists_exists; eauto]. exists [], a, (length l). split; auto. cbn. f_equal. auto.
Qed.
Lemma two_digits_ok : forall z, 0 <= z -> two_digits z ((if z <? 10 then ["0"%char] else []) ++ chars (dec (Z.to_N z))).
Proof. intros z H. destruct (Z.ltb_spec z 10); [apply two_padded | apply two_plain]; lia. Qed.
Lemma two_digits_one : forall z t, two_digits z t -> t = (if z <? 10 then ["0"%char] else []) ++ chars (dec (Z.to_N z)).
Proof. intros z t H. destruct H as [z H | z H]; destruct (Z.ltb_spec z 10); auto; lia. Qed.
Theorem layout_iff : forall d p t, d <> [] -> (layout d p = t <-> laid_out d p t).
Proof.
  intros d p t Hd. unfold layout. split.
  - intros <-. destruct ((-4 <? p) && (p <=? 16))%bool eqn:E.
    + apply andb_true_iff in E as [E1 E2]. apply Z.ltb_lt in E1. apply Z.leb_le in E2. destruct (Z.leb_spec p 0) as [L | L]; [apply lo_small; lia | ].
      destruct (Z.ltb_spec p (Z.of_nat (length d))) as [K | K]; [ | apply lo_large; lia].
      assert (Ln : length (firstn (Z.to_nat p) d) = Z.to_nat p) by (rewrite firstn_length; lia).
      pose proof (lo_inside (firstn (Z.to_nat p) d) (skipn (Z.to_nat p) d)) as I. rewrite firstn_skipn, Ln, Z2Nat.id in I by lia. apply I.
      * intros X. rewrite X in Ln. cbn in Ln. lia.
      * intros X. apply (f_equal (@length _)) in X. rewrite skipn_length in X. cbn in X. lia.
      * lia.
    + assert (O : p <= -4 \/ 16 < p) by (apply andb_false_iff in E as [E | E]; [apply Z.ltb_ge in E | apply Z.leb_gt in E]; lia).
      assert (Sg : (p - 1 <? 0) = (p <=? 0)) by (destruct (Z.ltb_spec (p - 1) 0), (Z.leb_spec p 0); lia). rewrite Sg.
      pose proof (two_digits_ok (Z.abs (p - 1)) ltac:(lia)) as T. destruct d as [ | c [ | c' d]]; [congruence | | ]; cbn [firstn skipn app].
      * apply lo_one; auto.
      * apply (lo_more c c' d p _ O T).
  - intros H. destruct H as [d p H | d d' Nd Nd' H | d p H P | c p t H T | c c' d p t H T].
    + replace ((-4 <? p) && (p <=? 16))%bool with true by (symmetry; apply andb_true_iff; split; [apply Z.ltb_lt | apply Z.leb_le]; lia).
      replace (p <=? 0) with true by (symmetry; apply Z.leb_le; lia). reflexivity.
    + assert (0 < length d)%nat by (destruct d; [congruence | cbn; lia]). assert (0 < length d')%nat by (destruct d'; [congruence | cbn; lia]).
      replace ((-4 <? Z.of_nat (length d)) && (Z.of_nat (length d) <=? 16))%bool with true by (symmetry; apply andb_true_iff; split; [apply Z.ltb_lt | apply Z.leb_le]; lia).
      replace (Z.of_nat (length d) <=? 0) with false by (symmetry; apply Z.leb_gt; lia). replace (Z.of_nat (length d) <? Z.of_nat (length (d ++ d'))) with true by (symmetry; apply Z.ltb_lt; rewrite app_length; lia).
      rewrite Nat2Z.id, firstn_app, firstn_all, Nat.sub_diag, skipn_app, skipn_all, Nat.sub_diag. cbn. rewrite app_nil_r. auto.
    + replace ((-4 <? p) && (p <=? 16))%bool with true by (symmetry; apply andb_true_iff; split; [apply Z.ltb_lt | apply Z.leb_le]; lia).
      replace (p <=? 0) with false by (symmetry; apply Z.leb_gt; lia). replace (p <? Z.of_nat (length d)) with false by (symmetry; apply Z.ltb_ge; lia). reflexivity.
    + replace ((-4 <? p) && (p <=? 16))%bool with false by (symmetry; apply andb_false_iff; destruct H; [left; apply Z.ltb_ge | right; apply Z.leb_gt]; lia).
      assert (Sg : (p - 1 <? 0) = (p <=? 0)) by (destruct (Z.ltb_spec (p - 1) 0), (Z.leb_spec p 0); lia). rewrite Sg, (two_digits_one _ _ T). reflexivity.
    + replace ((-4 <? p) && (p <=? 16))%bool with false by (symmetry; apply andb_false_iff; destruct H; [left; apply Z.ltb_ge | right; apply Z.leb_gt]; lia).
      assert (Sg : (p - 1 <? 0) = (p <=? 0)) by (destruct (Z.ltb_spec (p - 1) 0), (Z.leb_spec p 0); lia). rewrite Sg, (two_digits_one _ _ T). reflexivity.
Qed.
(** The digits of a positive number *)
Lemma dec_digits_split : forall q, 0 < q -> exists d c j, chars (dec (Z.to_N q)) = d ++ c :: repeat "0"%char j /\ c <> "0"%char.
Proof.
  intros q H. apply last_digit. pose proof (dec_no_zero (Z.to_N q)) as D. pose proof (decimal_dec (Z.to_N q)) as E. destruct D as [ | c l Hc Nc Hl]; [cbn in E; lia | ].
  exists c. split; auto. left. auto.
Qed.
Theorem repr_written : forall f t, is_float f -> (repr_float f = t <-> written f t).
Proof.
  intros f t V. destruct f as [s | s | | s m e].
  - destruct s; (split; [intros <-; constructor | intros H; inversion H; reflexivity]).
  - destruct s; (split; [intros <-; constructor | intros H; inversion H; reflexivity]).
  - split; [intros <-; constructor | intros H; inversion H; reflexivity].
  - destruct (shortest_best s m e V) as [n B]. cbn [repr_float]. destruct (shortest s m e) as [q x]. cbn [fst snd] in B.
    assert (Hq : 0 < q) by apply B. destruct (dec_digits_split q Hq) as (d & c & j & E & N). rewrite E, (trim_zeros_at d c j N).
    assert (Nd : d ++ [c] <> []) by (destruct d; discriminate). split.
    + intros <-. eapply wr_number; eauto. apply layout_iff; auto.
    + intros H. inversion H as [ | | | | | s' m' e' n' q' x' d' c' j' t' B' E' N' L Es Et]; subst. destruct (best_one _ _ _ _ _ _ _ B' B) as [-> ->].
      rewrite E in E'. assert (X : d ++ [c] = d' ++ [c']) by (rewrite <- (trim_zeros_at d c j N), E', (trim_zeros_at d' c' j' N'); auto).
      f_equal. apply layout_iff; auto. rewrite X, E'. exact L.
Qed.

(** ** What is written is read back *)
Lemma decimal_zeros : forall l j, decimal_value (l ++ repeat "0"%char j) = (decimal_value l * 10 ^ N.of_nat j)%N.
Proof.
  intros l j. unfold decimal_value. rewrite fold_left_app. generalize (fold_left (fun z c => 10 * z + (code c - 48))%N l 0%N). induction j as [ | j IH]; intros z; cbn [repeat fold_left].
  - rewrite N.pow_0_r. lia.
  - rewrite IH, Nat2N.inj_succ, N.pow_succ_r'. change (code "0") with 48%N. nia.
Qed.
Lemma decimal_lead : forall j l, decimal_value (repeat "0"%char j ++ l) = decimal_value l.
Proof. intros j l. unfold decimal_value. rewrite fold_left_app. f_equal. induction j as [ | j IH]; auto. Qed.
Lemma zeros_digits : forall j, Forall digit (repeat "0"%char j).
Proof. intros j. apply Forall_forall. intros c H. apply repeat_spec in H. subst c. split; cbn; lia. Qed.
Lemma exponent_ok : forall p t, two_digits (Z.abs (p - 1)) t -> exp_text ("e"%char :: (if p <=? 0 then "-"%char else "+"%char) :: t) (p - 1).
Proof.
  intros p t T. assert (K : t <> [] /\ Forall digit t /\ Z.of_N (decimal_value t) = Z.abs (p - 1)).
  { assert (D0 : digit "0") by (split; cbn; lia). destruct T as [z H | z H]; destruct (digits_dec_all (Z.to_N z)) as [D N].
    - split; [discriminate | ]. split; [constructor; auto | ]. change (decimal_value ("0"%char :: chars (dec (Z.to_N z)))) with (decimal_value (repeat "0"%char 1 ++ chars (dec (Z.to_N z)))).
      rewrite decimal_lead, decimal_dec. lia.
    - split; auto. split; auto. rewrite decimal_dec. lia. }
  destruct K as (N & D & E). destruct (Z.leb_spec p 0) as [L | L].
  - replace (p - 1) with (- Z.of_N (decimal_value t)) by lia. apply et_minus; cbn; auto.
  - replace (p - 1) with (Z.of_N (decimal_value t)) by lia. apply et_plus; cbn; auto.
Qed.
(** The value of a layout, for digits that start with another digit than 0 *)
Lemma laid_out_value : forall f s d p t, int_digits d -> d <> ["0"%char] -> read_as f (Z.of_N (decimal_value d)) (p - Z.of_nat (length d)) -> negative f = s -> laid_out d p t ->
  unsigned_text s t (VFloat f).
Proof.
  intros f s d p t Id Nz R Sg L.
  assert (Val : forall z e', read_as f (Z.of_N z) e' -> float_of_decimal s z e' = f).
  { intros z e' [_ Q]. rewrite Sg in Q. eapply rounds_unique; [apply (below_pos e') | apply float_of_decimal_rounds | exact Q]. }
  assert (Dd : Forall digit d) by (apply (int_digits_all d); auto).
  assert (Dz : Forall digit ["0"%char]) by (constructor; [split; cbn; lia | constructor]).
  assert (Lead : forall c l, d = c :: l -> forall l', Forall digit l' -> int_digits (c :: l')).
  { intros c l -> l' H. inversion Id as [E | c0 l0 Hc Nc Hl]; subst; [congruence | ]. apply id_other; auto. }
  destruct L as [d p H | d d' Nd Nd' H | d p H P | c p t H T | c c' d p t H T].
  - assert (U := ut_float s ["0"%char] ("."%char :: zero_digits (- p) ++ d) (zero_digits (- p) ++ d) [] 0 id_zero).
    rewrite app_nil_r in U. cbn [app] in U. rewrite (Val (decimal_value ("0"%char :: zero_digits (- p) ++ d))) in U.
    + apply U; [ | constructor | discriminate]. constructor; [ | apply Forall_app; split; [apply zeros_digits | auto]].
      intros X. apply app_eq_nil in X as [_ ->]. inversion Id.
    + unfold zero_digits. change ("0"%char :: repeat "0"%char (Z.to_nat (- p)) ++ d) with (repeat "0"%char (S (Z.to_nat (- p))) ++ d). rewrite decimal_lead, app_length, repeat_length.
      replace (0 - Z.of_nat (Z.to_nat (- p) + length d)) with (p - Z.of_nat (length d)) by lia. exact R.
  - apply Forall_app in Dd as [D1 D2]. destruct d as [ | c d]; [congruence | ].
    assert (U := ut_float s (c :: d) ("."%char :: d') d' [] 0 (Lead c _ eq_refl d (Forall_inv_tail D1))). rewrite app_nil_r in U.
    rewrite (Val (decimal_value ((c :: d) ++ d'))) in U.
    + apply U; [constructor; auto | constructor | discriminate].
    + rewrite app_length in R. replace (0 - Z.of_nat (length d')) with (Z.of_nat (length (c :: d)) - Z.of_nat (length (c :: d) + length d')) by lia. exact R.
  - destruct d as [ | c d]; [inversion Id | ]. set (zs := zero_digits (p - Z.of_nat (length (c :: d)))) in *.
    assert (U := ut_float s ((c :: d) ++ zs) ["."; "0"]%char ["0"%char] [] 0 (Lead c _ eq_refl (d ++ zs) ltac:(apply Forall_app; split; [exact (Forall_inv_tail Dd) | apply zeros_digits]))).
    rewrite app_nil_r in U. rewrite <- !app_assoc in U. rewrite (Val (decimal_value ((c :: d) ++ zs ++ ["0"%char]))) in U.
    + apply U; [constructor; [discriminate | auto] | constructor | discriminate].
    + assert (Ez : zs ++ ["0"%char] = repeat "0"%char (S (Z.to_nat (p - Z.of_nat (length (c :: d)))))) by (unfold zs, zero_digits; rewrite <- repeat_cons; reflexivity).
      rewrite Ez, decimal_zeros. set (v := decimal_value (c :: d)) in *. set (w := p - Z.of_nat (length (c :: d))) in *. cbn [length].
      assert (Hv : 0 < Z.of_N v) by apply R. assert (Ew : Z.of_N (10 ^ N.of_nat (S (Z.to_nat w))) = 10 ^ (w + 1)).
      { rewrite N2Z.inj_pow. change (Z.of_N 10) with 10. f_equal. lia. }
      rewrite N2Z.inj_mul, Ew. assert (0 < 10 ^ (w + 1)) by (apply Z.pow_pos_nonneg; lia). apply (read_same f (Z.of_N v) w _ _ R); [nia | ].
      change (0 - Z.of_nat 1) with (-1). rewrite (shift (Z.of_N v) (-1) w) by lia. replace (w - -1) with (w + 1) by lia. auto.
  - assert (U := ut_float s [c] [] [] _ (p - 1) (Lead c _ eq_refl [] (Forall_nil _)) ft_none (exponent_ok p t T)). cbn [app length] in U.
    rewrite (Val (decimal_value [c])) in U; [apply U; discriminate | ]. cbn [length] in R. replace (p - 1 - Z.of_nat 0) with (p - Z.of_nat 1) by lia. exact R.
  - assert (U := ut_float s [c] ("."%char :: c' :: d) (c' :: d) _ (p - 1) (Lead c _ eq_refl [] (Forall_nil _)) ltac:(constructor; [discriminate | exact (Forall_inv_tail Dd)]) (exponent_ok p t T)).
    cbn [app] in U. rewrite (Val (decimal_value (c :: c' :: d))) in U; [apply U; discriminate | ].
    cbn [length] in R |- *. replace (p - 1 - Z.of_nat (S (length d))) with (p - Z.of_nat (S (S (length d)))) by lia. exact R.
Qed.
Theorem repr_float_ok : forall f, is_float f -> is_finite f -> number_text (repr_float f) (VFloat f).
Proof.
  intros f V F. assert (W := proj1 (repr_written f _ V) eq_refl). revert W. generalize (repr_float f). intros t W. destruct W as [ | | | | | s m e n q x d c j t B E N L]; try destruct F.
  - apply nt_plain. exact (ut_float false ["0"%char] ["."; "0"]%char ["0"%char] [] 0 id_zero ltac:(constructor; [discriminate | constructor; [split; cbn; lia | constructor]]) et_none ltac:(discriminate)).
  - apply nt_minus. exact (ut_float true ["0"%char] ["."; "0"]%char ["0"%char] [] 0 id_zero ltac:(constructor; [discriminate | constructor; [split; cbn; lia | constructor]]) et_none ltac:(discriminate)).
  - apply signed_text. assert (Hq : 0 < q) by apply B. pose proof (best_read _ _ _ _ B) as R. pose proof (dec_no_zero (Z.to_N q)) as D. pose proof (decimal_dec (Z.to_N q)) as Q. rewrite E in D, Q.
    replace (d ++ c :: repeat "0"%char j) with ((d ++ [c]) ++ repeat "0"%char j) in * by (rewrite <- app_assoc; reflexivity). rewrite decimal_zeros in Q.
    rewrite app_length, repeat_length in L. apply (f_equal Z.of_N) in Q. rewrite N2Z.inj_mul, N2Z.inj_pow, Z2N.id in Q by lia. change (Z.of_N 10) with 10 in Q. rewrite nat_N_Z in Q.
    eapply laid_out_value; [ | | | reflexivity | exact L].
    + assert (DD : Forall digit (d ++ [c])) by (apply int_digits_all in D as [D _]; apply Forall_app in D as [D _]; auto).
      destruct d as [ | a d]; cbn [app] in *; inversion DD as [ | ? ? Da Dl]; subst; [apply id_other; auto | ].
      inversion D as [E1 | a' l' H1 H2 H3]; subst; [ | apply id_other; auto]. destruct d; discriminate.
    + intros X. destruct d as [ | a [ | a' d]]; try discriminate. injection X as X. congruence.
    + apply (read_same _ q x _ _ R); [destruct (Z.of_N (decimal_value (d ++ [c]))) eqn:Z0; lia | ].
      rewrite (shift (Z.of_N (decimal_value (d ++ [c]))) x) by lia.
      replace (x + Z.of_nat (length (d ++ [c]) + j) - Z.of_nat (length (d ++ [c])) - x) with (Z.of_nat j) by lia. rewrite Q. auto.
Qed.
