(** Proofs about floats: conversions and products are correctly rounded. *)
From Verif Require Import PyBase PyNum SpecText SpecFloats.
From Coq Require Import SpecFloat Lia.
Open Scope Z_scope.

(** ** Digits *)
Lemma digits_pos : forall p, 2 ^ (Zpos (digits2_pos p) - 1) <= Zpos p < 2 ^ Zpos (digits2_pos p).
Proof.
  induction p as [p IH | p IH | ]; cbn [digits2_pos].
  - rewrite Pos2Z.inj_succ. replace (Z.succ (Zpos (digits2_pos p)) - 1) with (Z.succ (Zpos (digits2_pos p) - 1)) by lia.
    rewrite !Z.pow_succ_r by lia. lia.
  - rewrite Pos2Z.inj_succ. replace (Z.succ (Zpos (digits2_pos p)) - 1) with (Z.succ (Zpos (digits2_pos p) - 1)) by lia.
    rewrite !Z.pow_succ_r by lia. lia.
  - cbn. lia.
Qed.
Lemma Zdigits_lt : forall m, 0 <= m -> m < 2 ^ Zdigits2 m.
Proof. intros [ | p | p] H; cbn [Zdigits2]; [cbn; lia | apply digits_pos | lia]. Qed.
Lemma Zdigits_ge : forall m, 0 < m -> 2 ^ (Zdigits2 m - 1) <= m.
Proof. intros [ | p | p] H; cbn [Zdigits2]; [lia | apply digits_pos | lia]. Qed.
Lemma Zdigits_nonneg : forall m, 0 <= Zdigits2 m.
Proof. intros [ | p | p]; cbn [Zdigits2]; lia. Qed.
Lemma Zdigits_pos : forall m, 0 < m -> 0 < Zdigits2 m.
Proof. intros [ | p | p] H; cbn [Zdigits2]; lia. Qed.
Lemma Zdigits_unique : forall m d, 0 < d -> 2 ^ (d - 1) <= m < 2 ^ d -> Zdigits2 m = d.
Proof.
  intros m d Hd [L U]. assert (0 < 2 ^ (d - 1)) by (apply Z.pow_pos_nonneg; lia).
  assert (Lm := Zdigits_lt m ltac:(lia)). assert (Gm := Zdigits_ge m ltac:(lia)). assert (Pm := Zdigits_pos m ltac:(lia)).
  apply Z.le_antisymm.
  - apply Z.lt_succ_r. replace (Z.succ d) with (d + 1) by lia. apply Z.lt_sub_lt_add_r. apply (Z.pow_lt_mono_r_iff 2); lia.
  - apply Z.lt_succ_r. replace (Z.succ (Zdigits2 m)) with (Zdigits2 m + 1) by lia. apply Z.lt_sub_lt_add_r. apply (Z.pow_lt_mono_r_iff 2); lia.
Qed.
Lemma Zdigits_le : forall m d, 0 <= m -> 0 <= d -> m < 2 ^ d -> Zdigits2 m <= d.
Proof.
  intros m d Hm Hd U. destruct (Z.eq_dec m 0) as [-> | N]; [cbn; lia | ].
  assert (Gm := Zdigits_ge m ltac:(lia)). assert (Pm := Zdigits_pos m ltac:(lia)).
  assert (Zdigits2 m - 1 < d); [ | lia]. apply (Z.pow_lt_mono_r_iff 2); lia.
Qed.
Lemma Zdigits_ge' : forall m d, 0 <= d -> 2 ^ d <= m -> d < Zdigits2 m.
Proof.
  intros m d Hd L. assert (0 < 2 ^ d) by (apply Z.pow_pos_nonneg; lia). assert (Lm := Zdigits_lt m ltac:(lia)).
  apply (Z.pow_lt_mono_r_iff 2); try lia. apply Zdigits_nonneg.
Qed.

(** ** Where x / w lies relative to the integer m *)
Definition inb (x w m : Z) (l : location) : Prop :=
  match l with
  | loc_Exact => x = m * w
  | loc_Inexact c => m * w < x < (m + 1) * w /\ Z.compare (2 * x) ((2 * m + 1) * w) = c
  end.
Lemma inb_floor : forall x w m l, 0 < w -> inb x w m l -> m * w <= x < (m + 1) * w.
Proof. intros x w m [ | c] Hw H; cbn in H; [subst; nia | lia]. Qed.
Lemma loc_record : forall m l, loc_of_shr_record (shr_record_of_loc m l) = l /\ shr_m (shr_record_of_loc m l) = m.
Proof. intros m [ | [ | | ]]; auto. Qed.

Lemma shr_1_ok : forall x w r, 0 < w -> 0 <= shr_m r -> inb x w (shr_m r) (loc_of_shr_record r) ->
  inb x (2 * w) (shr_m (shr_1 r)) (loc_of_shr_record (shr_1 r)) /\ shr_m (shr_1 r) = shr_m r / 2.
Proof.
  intros x w [m r s] Hw Hm H. cbn [shr_m] in Hm, H.
  assert (E : exists h (o : bool), m = 2 * h + (if o then 1 else 0) /\ 0 <= h /\ shr_1 {| shr_m := m; shr_r := r; shr_s := s |} = {| shr_m := h; shr_r := o; shr_s := orb r s |}).
  { destruct m as [ | [p | p | ] | p]; [exists 0, false | exists (Zpos p), true | exists (Zpos p), false | exists 0, true | lia]; cbn; repeat split; lia. }
  destruct E as (h & o & Em & Hh & ->). cbn [shr_m]. split.
  2:{ destruct o; [rewrite (Z.add_comm (2 * h)) in Em | rewrite Z.add_0_r in Em]; subst m.
      - rewrite Z.mul_comm, Z.div_add by lia. reflexivity.
      - rewrite Z.mul_comm, Z.div_mul by lia. reflexivity. }
  assert (exists a, a = h * w) as [a Ea] by eauto.
  assert (E1 : h * (2 * w) = 2 * a) by (subst a; ring).
  assert (E2 : (h + 1) * (2 * w) = 2 * a + 2 * w) by (subst a; ring).
  assert (E3 : (2 * h + 1) * (2 * w) = 4 * a + 2 * w) by (subst a; ring).
  assert (E4 : m * w = 2 * a + (if o then w else 0)) by (subst a m; destruct o; ring).
  assert (E5 : (m + 1) * w = 2 * a + w + (if o then w else 0)) by (subst a m; destruct o; ring).
  assert (E6 : (2 * m + 1) * w = 4 * a + w + (if o then 2 * w else 0)) by (subst a m; destruct o; ring).
  destruct r, s, o; cbn [inb loc_of_shr_record orb] in H |- *; rewrite E1, ?E2, ?E3; rewrite E4, ?E5, ?E6 in H;
    rewrite ?Z.compare_lt_iff, ?Z.compare_gt_iff, ?Z.compare_eq_iff in *; lia.
Qed.
Lemma iter_pos_nat : forall A (f : A -> A) p x, iter_pos f p x = Nat.iter (Pos.to_nat p) f x.
Proof.
  assert (C : forall A (f : A -> A) n m x, Nat.iter n f (Nat.iter m f x) = Nat.iter (n + m) f x).
  { intros A f n m x. induction n as [ | n IH]; auto. cbn. f_equal. auto. }
  intros A f. induction p as [p IH | p IH | ]; intros x; cbn [iter_pos].
  - rewrite !IH, C. change (f x) with (Nat.iter 1 f x). rewrite C. f_equal. lia.
  - rewrite !IH, C. f_equal. lia.
  - reflexivity.
Qed.
Lemma shr_iter_ok : forall n x w r, 0 < w -> 0 <= shr_m r -> inb x w (shr_m r) (loc_of_shr_record r) ->
  let r' := Nat.iter n shr_1 r in
  inb x (2 ^ Z.of_nat n * w) (shr_m r') (loc_of_shr_record r') /\ shr_m r' = shr_m r / 2 ^ Z.of_nat n.
Proof.
  induction n as [ | n IH]; intros x w r Hw Hm H.
  - cbn [Nat.iter nat_rect]. change (2 ^ Z.of_nat 0) with 1. rewrite Z.mul_1_l, Z.div_1_r. auto.
  - specialize (IH x w r Hw Hm H). cbv zeta in IH. destruct IH as [I1 I2].
    assert (Hp : 0 < 2 ^ Z.of_nat n) by (apply Z.pow_pos_nonneg; lia).
    change (Nat.iter (S n) shr_1 r) with (shr_1 (Nat.iter n shr_1 r)). cbv zeta.
    destruct (shr_1_ok x (2 ^ Z.of_nat n * w) (Nat.iter n shr_1 r)) as [J1 J2]; auto; [nia | rewrite I2; apply Z.div_pos; lia | ].
    rewrite Nat2Z.inj_succ, Z.pow_succ_r by lia. rewrite Z.mul_assoc in J1. split; auto.
    rewrite J2, I2, Z.div_div by lia. f_equal. lia.
Qed.
Lemma shr_ok : forall x w r e n, 0 < w -> 0 <= shr_m r -> 0 <= n -> inb x w (shr_m r) (loc_of_shr_record r) ->
  exists r', shr r e n = (r', e + n) /\ inb x (2 ^ n * w) (shr_m r') (loc_of_shr_record r') /\ shr_m r' = shr_m r / 2 ^ n.
Proof.
  intros x w r e n Hw Hm Hn H. destruct n as [ | p | p]; [ | | lia].
  - exists r. cbn [shr]. rewrite Z.add_0_r. change (2 ^ 0) with 1. rewrite Z.mul_1_l, Z.div_1_r. auto.
  - cbn [shr]. eexists. split; [reflexivity | ]. rewrite iter_pos_nat.
    assert (K := shr_iter_ok (Pos.to_nat p) x w r Hw Hm H). cbv zeta in K. rewrite positive_nat_Z in K. auto.
Qed.

Notation femin := (-1074).
Lemma fexp_eq : forall e, fexp 53 1024 e = Z.max (e - 53) femin.
Proof. reflexivity. Qed.

(** The first shift leaves a significand of at most 53 bits, and 53 bits unless subnormal. *)
Lemma shr_fexp_ok : forall x w m e l, 0 < w -> 0 <= m -> inb x w m l -> e <= fexp 53 1024 (Zdigits2 m + e) ->
  exists r', shr_fexp 53 1024 m e l = (r', fexp 53 1024 (Zdigits2 m + e)) /\
    inb x (2 ^ (fexp 53 1024 (Zdigits2 m + e) - e) * w) (shr_m r') (loc_of_shr_record r') /\
    0 <= shr_m r' < 2 ^ 53 /\ (fexp 53 1024 (Zdigits2 m + e) = femin \/ 2 ^ 52 <= shr_m r').
Proof.
  intros x w m e l Hw Hm H He. unfold shr_fexp. set (e' := fexp 53 1024 (Zdigits2 m + e)) in *.
  destruct (loc_record m l) as [L1 L2].
  destruct (shr_ok x w (shr_record_of_loc m l) e (e' - e)) as (r' & E & I & Em); [auto | rewrite L2; auto | lia | rewrite L1, L2; auto | ].
  exists r'. rewrite E. replace (e + (e' - e)) with e' by lia. split; auto. split; auto. rewrite L2 in Em.
  assert (Hp : 0 < 2 ^ (e' - e)) by (apply Z.pow_pos_nonneg; lia).
  assert (Dl := Zdigits_lt m Hm). assert (Dn := Zdigits_nonneg m).
  assert (Ee : e' = Z.max (Zdigits2 m + e - 53) femin) by reflexivity.
  rewrite Em. split.
  - split; [apply Z.div_pos; lia | ]. apply Z.div_lt_upper_bound; [lia | ]. rewrite <- Z.pow_add_r by lia.
    eapply Z.lt_le_trans; [exact Dl | ]. apply Z.pow_le_mono_r; lia.
  - destruct (Z.eq_dec e' femin); [auto | right]. assert (En : e' - e = Zdigits2 m - 53) by lia.
    assert (0 < m) by (destruct (Z.eq_dec m 0) as [-> | ]; [cbn in En; lia | lia]).
    apply Z.div_le_lower_bound; [lia | ]. rewrite <- Z.pow_add_r by lia.
    replace (e' - e + 52) with (Zdigits2 m - 1) by lia. apply Zdigits_ge. auto.
Qed.

(** Rounding to the nearest integer *)
Definition nearest_int (x w m : Z) : Prop := 2 * Z.abs (x - m * w) <= w /\ (2 * Z.abs (x - m * w) = w -> Z.even m = true).
Lemma round_ok : forall x w m l, 0 < w -> inb x w m l -> nearest_int x w (round_nearest_even m l) /\
  (round_nearest_even m l = m \/ round_nearest_even m l = m + 1).
Proof.
  intros x w m l Hw H. unfold nearest_int.
  assert (E1 : (m + 1) * w = m * w + w) by ring. assert (E2 : (2 * m + 1) * w = 2 * (m * w) + w) by ring.
  destruct l as [ | [ | | ]]; cbn [inb round_nearest_even] in *.
  - split; auto. split; intros; lia.
  - rewrite E1, E2, Z.compare_eq_iff in H. destruct (Z.even m) eqn:Em.
    + split; auto. split; auto. lia.
    + split; auto. rewrite E1. split; [lia | ]. intros _. rewrite Z.add_1_r, Z.even_succ, <- Z.negb_even, Em. auto.
  - rewrite E1, E2, Z.compare_lt_iff in H. split; auto. split; lia.
  - rewrite E1, E2, Z.compare_gt_iff in H. split; auto. rewrite E1. split; lia.
Qed.

(** The second shift *)
Lemma shr_again : forall m e, 0 <= m <= 2 ^ 53 -> femin <= e -> (e = femin \/ 2 ^ 52 <= m) ->
  exists r e2, shr_fexp 53 1024 m e loc_Exact = (r, e2) /\ 0 <= shr_m r < 2 ^ 53 /\ (e2 = femin \/ 2 ^ 52 <= shr_m r) /\
    femin <= e2 /\ (shr_m r = m /\ e2 = e \/ m = 2 ^ 53 /\ shr_m r = 2 ^ 52 /\ e2 = e + 1).
Proof.
  intros m e Hm He Hn. unfold shr_fexp. rewrite fexp_eq.
  destruct (Z.eq_dec m (2 ^ 53)) as [-> | N].
  - change (Zdigits2 (2 ^ 53)) with 54. replace (Z.max (54 + e - 53) femin - e) with 1 by lia.
    cbn [shr]. exists {| shr_m := 2 ^ 52; shr_r := false; shr_s := false |}, (e + 1). split; [reflexivity | ]. cbn [shr_m]. lia.
  - assert (Ed : Zdigits2 m <= 53) by (apply Zdigits_le; lia).
    assert (Z.max (Zdigits2 m + e - 53) femin - e = 0).
    { destruct Hn as [-> | Hn]; [lia | ]. assert (52 < Zdigits2 m) by (apply Zdigits_ge'; lia). lia. }
    rewrite H. cbn [shr]. exists (shr_record_of_loc m loc_Exact), e. cbn [shr_record_of_loc shr_m]. repeat split; auto; lia.
Qed.

Lemma canonical_iff : forall m e, bounded 53 1024 m e = true <->
  femin <= e <= 971 /\ Zpos m < 2 ^ 53 /\ (e = femin \/ 2 ^ 52 <= Zpos m).
Proof.
  intros m e. unfold bounded, canonical_mantissa. rewrite andb_true_iff, fexp_eq, <- Zeq_is_eq_bool, <- Zle_is_le_bool.
  change (Zpos (digits2_pos m)) with (Zdigits2 (Zpos m)).
  assert (D1 := Zdigits_lt (Zpos m) ltac:(lia)). assert (D2 := Zdigits_ge (Zpos m) ltac:(lia)). assert (D3 := Zdigits_pos (Zpos m) ltac:(lia)).
  split.
  - intros [H L]. assert (Hd : Zdigits2 (Zpos m) <= 53) by lia. split; [lia | ]. split.
    + eapply Z.lt_le_trans; [exact D1 | ]. apply Z.pow_le_mono_r; lia.
    + destruct (Z.eq_dec e femin); auto. right. replace 52 with (Zdigits2 (Zpos m) - 1) by lia. auto.
  - intros (R & U & N). assert (Hd : Zdigits2 (Zpos m) <= 53) by (apply Zdigits_le; lia). split; [ | lia].
    destruct N as [-> | N]; [lia | ]. assert (52 < Zdigits2 (Zpos m)) by (apply Zdigits_ge'; lia). lia.
Qed.

(** ** The nearest float *)
Lemma nearest_int_min : forall x w m k, 0 < w -> nearest_int x w m ->
  Z.abs (x - m * w) <= Z.abs (x - k * w) /\ (Z.abs (x - m * w) = Z.abs (x - k * w) -> k = m \/ Z.even m = true).
Proof.
  intros x w m k Hw [H1 H2]. destruct (Z.eq_dec k m) as [-> | N]; [split; auto; lia | ].
  assert (w <= Z.abs (k * w - m * w)) by (rewrite <- Z.mul_sub_distr_r, Z.abs_mul; nia).
  split; [lia | ]. intros E. right. apply H2. lia.
Qed.
Lemma size_nonneg : forall f, 0 <= size f.
Proof.
  intros [s | s | | s m e]; cbn [size]; [apply Z.le_refl | apply Z.pow_nonneg; lia | apply Z.le_refl | ].
  assert (0 <= 2 ^ (e + 1074)) by (apply Z.pow_nonneg; lia). nia.
Qed.
Lemma size_max : forall g, is_float g -> size g <= 2 ^ (1024 + 1074).
Proof.
  assert (P : 0 < 2 ^ (1024 + 1074)) by (apply Z.pow_pos_nonneg; lia).
  intros [s | s | | s m e] H; cbn [size]; try (apply Z.lt_le_incl, P); [apply Z.le_refl | ].
  unfold is_float, valid_binary in H. apply canonical_iff in H as (R & U & _).
  replace (2 ^ (1024 + 1074)) with (2 ^ 53 * 2 ^ 2045) by (rewrite <- Z.pow_add_r by lia; f_equal).
  apply Z.mul_le_mono_nonneg; [lia | lia | apply Z.pow_nonneg; lia | apply Z.pow_le_mono_r; lia].
Qed.
Lemma size_grid : forall g e, is_float g -> g <> S754_nan -> femin <= e <= 971 ->
  (exists k, size g = k * 2 ^ (e + 1074)) \/ size g < 2 ^ 52 * 2 ^ (e + 1074) /\ e <> femin.
Proof.
  intros [s | s | | s m eg] e H N He; cbn [size]; [left; exists 0; lia | | congruence | ].
  - left. exists (2 ^ (1024 - e)). rewrite <- Z.pow_add_r by lia. f_equal. lia.
  - unfold is_float, valid_binary in H. apply canonical_iff in H as (R & U & _). destruct (Z.le_gt_cases e eg) as [L | L].
    + left. exists (Zpos m * 2 ^ (eg - e)). rewrite <- Z.mul_assoc, <- Z.pow_add_r by lia. f_equal. f_equal. lia.
    + right. split; [ | lia]. apply Z.lt_le_trans with (2 ^ 53 * 2 ^ (eg + 1074)).
      * apply Z.mul_lt_mono_pos_r; auto. apply Z.pow_pos_nonneg; lia.
      * rewrite <- !Z.pow_add_r by lia. apply Z.pow_le_mono_r; lia.
Qed.

(** [x / q] in units of 2^b, below all exponents that occur *)
Definition rounds_at (b : Z) (neg : bool) (x q : Z) (f : float64) : Prop := rounds neg x (q * 2 ^ (femin - b)) f.
Theorem round_aux_ok : forall sx b x q m e l, 0 < q -> b <= femin -> b <= e -> 0 <= m -> inb x (q * 2 ^ (e - b)) m l ->
  e <= fexp 53 1024 (Zdigits2 m + e) -> rounds_at b sx x q (binary_round_aux 53 1024 sx m e l).
Proof.
  intros sx b x q m e l Hq Hb1 Hb2 Hm H He.
  assert (Hw : 0 < q * 2 ^ (e - b)) by (assert (0 < 2 ^ (e - b)) by (apply Z.pow_pos_nonneg; lia); nia).
  destruct (shr_fexp_ok x _ m e l Hw Hm H He) as (r1 & E1 & I1 & B1 & N1).
  set (e1 := fexp 53 1024 (Zdigits2 m + e)) in *.
  assert (He1 : femin <= e1) by (unfold e1; rewrite fexp_eq; lia).
  set (U := 2 ^ (e1 + 1074)). set (Q := q * 2 ^ (femin - b)).
  assert (HU : 0 < U) by (apply Z.pow_pos_nonneg; lia).
  assert (HQ : 0 < Q) by (unfold Q; assert (0 < 2 ^ (femin - b)) by (apply Z.pow_pos_nonneg; lia); nia).
  assert (Ew : 2 ^ (e1 - e) * (q * 2 ^ (e - b)) = Q * U).
  { unfold Q, U. rewrite <- Z.mul_assoc, <- Z.pow_add_r by lia. rewrite Z.mul_assoc, (Z.mul_comm _ q), <- Z.mul_assoc, <- Z.pow_add_r by lia. f_equal. f_equal. lia. }
  rewrite Ew in I1. clear Ew H Hw He.
  assert (HQU : 0 < Q * U) by nia.
  destruct (round_ok x (Q * U) (shr_m r1) _ HQU I1) as [R1 R2].
  assert (F1 := inb_floor _ _ _ _ HQU I1).
  set (m' := round_nearest_even (shr_m r1) (loc_of_shr_record r1)) in *.
  destruct (shr_again m' e1) as (r2 & e2 & E2 & B2 & N2 & Le2 & V2); [lia | auto | lia | ].
  unfold binary_round_aux. rewrite E1. fold m'. rewrite E2. clear E1 E2.
  assert (Key : e1 <= 971 -> forall g, is_float g -> g <> S754_nan ->
            Z.abs (x - Q * (m' * U)) <= Z.abs (x - Q * size g) /\
            (Z.abs (x - Q * (m' * U)) = Z.abs (x - Q * size g) -> m' * U = size g \/ Z.even m' = true)).
  { intros Le1 g Hg Ng. replace (Q * (m' * U)) with (m' * (Q * U)) by ring. destruct (size_grid g e1 Hg Ng (conj He1 Le1)) as [[k Ek] | [Lg Nm]].
    - fold U in Ek. rewrite Ek. replace (Q * (k * U)) with (k * (Q * U)) by ring.
      destruct (nearest_int_min x (Q * U) m' k HQU R1) as [K1 K2]. split; auto. intros E. destruct (K2 E) as [-> | ]; auto.
    - fold U in Lg. destruct N1 as [N1 | N1]; [congruence | ].
      assert (Q * size g < 2 ^ 52 * (Q * U)) by (replace (2 ^ 52 * (Q * U)) with (Q * (2 ^ 52 * U)) by ring; apply Z.mul_lt_mono_pos_l; auto).
      destruct (nearest_int_min x (Q * U) m' (2 ^ 52) HQU R1) as [K1 _].
      assert (2 ^ 52 * (Q * U) <= shr_m r1 * (Q * U)) by (apply Z.mul_le_mono_nonneg_r; lia). lia. }
  destruct (shr_m r2) as [ | mm | mm] eqn:Em; [ | | lia].
  - (* zero *)
    destruct V2 as [[V2 _] | [_ [V2 _]]]; [ | lia].
    assert (Le1 : e1 <= 971) by lia. split; [reflexivity | ]. split; [discriminate | ]. split; [reflexivity | ].
    fold Q. cbn [size even_float]. intros g Hg Ng. specialize (Key Le1 g Hg Ng). rewrite <- V2, Z.mul_0_l in Key. split; [apply Key | auto].
  - destruct (Z.leb_spec e2 (1024 - 53)) as [L2 | L2].
    + (* a finite number *)
      assert (Le1 : e1 <= 971) by lia.
      assert (Es : m' * U = size (S754_finite sx mm e2)).
      { cbn [size]. unfold U. destruct V2 as [[-> ->] | [Ev1 [-> ->]]]; auto. rewrite Ev1.
        replace (e1 + 1 + 1074) with (1 + (e1 + 1074)) by lia. rewrite (Z.pow_add_r 2 1 (e1 + 1074)), Z.mul_assoc by lia. reflexivity. }
      assert (Ee : Z.even m' = true -> even_float (S754_finite sx mm e2) = true).
      { cbn [even_float]. destruct V2 as [[-> _] | [_ [-> _]]]; auto. }
      split; [unfold is_float, valid_binary; apply canonical_iff; lia | ]. split; [discriminate | ]. split; [reflexivity | ].
      fold Q. intros g Hg Ng. specialize (Key Le1 g Hg Ng). rewrite Es in Key. destruct Key as [K1 K2]. split; auto. intros E. destruct (K2 E); auto.
    + (* too large *)
      split; [reflexivity | ]. split; [discriminate | ]. split; [reflexivity | ]. fold Q. intros g Hg Ng. split; [ | auto].
      destruct (Z.eq_dec e1 971) as [E1 | E1].
      * specialize (Key ltac:(lia) g Hg Ng). destruct V2 as [[_ V2] | [Ev1 _]]; [lia | ].
        assert (Es : m' * U = size (S754_infinity sx)).
        { cbn [size]. unfold U. rewrite Ev1, E1, <- Z.pow_add_r by lia. f_equal. }
        rewrite Es in Key. apply Key.
      * assert (L1 : 972 <= e1) by lia. destruct N1 as [N1 | N1]; [lia | ].
        assert (G := size_max g Hg).
        assert (Q * size (S754_infinity sx) <= x).
        { eapply Z.le_trans; [ | apply F1]. apply Z.le_trans with (2 ^ 52 * (Q * U)); [ | apply Z.mul_le_mono_nonneg_r; lia].
          replace (2 ^ 52 * (Q * U)) with (Q * (2 ^ 52 * U)) by ring. apply Z.mul_le_mono_nonneg_l; [lia | ].
          cbn [size]. unfold U. rewrite <- Z.pow_add_r by lia. apply Z.pow_le_mono_r; lia. }
        cbn [size] in *. assert (Q * size g <= Q * 2 ^ (1024 + 1074)) by (apply Z.mul_le_mono_nonneg_l; lia).
        remember (2 ^ (1024 + 1074)) as big. lia.
Qed.

(** ** A float is determined by its sign and size *)
Lemma size_pos : forall s m e, is_float (S754_finite s m e) -> 0 < size (S754_finite s m e) < 2 ^ (1024 + 1074).
Proof.
  intros s m e H. unfold is_float, valid_binary in H. apply canonical_iff in H as (R & U & _). cbn [size].
  assert (0 < 2 ^ (e + 1074)) by (apply Z.pow_pos_nonneg; lia). split; [nia | ].
  replace (2 ^ (1024 + 1074)) with (2 ^ 53 * 2 ^ 2045) by (rewrite <- Z.pow_add_r by lia; f_equal).
  apply Z.lt_le_trans with (2 ^ 53 * 2 ^ (e + 1074)).
  - apply Z.mul_lt_mono_pos_r; auto.
  - apply Z.mul_le_mono_nonneg_l; [lia | apply Z.pow_le_mono_r; lia].
Qed.
Lemma finite_size_inj : forall m e m' e', bounded 53 1024 m e = true -> bounded 53 1024 m' e' = true ->
  Zpos m * 2 ^ (e + 1074) = Zpos m' * 2 ^ (e' + 1074) -> m = m' /\ e = e'.
Proof.
  assert (W : forall m e m' e', bounded 53 1024 m e = true -> bounded 53 1024 m' e' = true -> e <= e' ->
            Zpos m * 2 ^ (e + 1074) = Zpos m' * 2 ^ (e' + 1074) -> m = m' /\ e = e').
  { intros m e m' e' H H' L E. apply canonical_iff in H as (R & U & N). apply canonical_iff in H' as (R' & U' & N').
    replace (e' + 1074) with ((e' - e) + (e + 1074)) in E by lia. rewrite (Z.pow_add_r 2 (e' - e) (e + 1074)), Z.mul_assoc in E by lia.
    apply Z.mul_cancel_r in E; [ | assert (0 < 2 ^ (e + 1074)) by (apply Z.pow_pos_nonneg; lia); lia].
    destruct (Z.eq_dec e e') as [-> | Ne]; [rewrite Z.sub_diag, Z.mul_1_r in E; injection E as ->; auto | exfalso].
    destruct N' as [N' | N']; [lia | ]. assert (2 ^ 1 <= 2 ^ (e' - e)) by (apply Z.pow_le_mono_r; lia). nia. }
  intros m e m' e' H H' E. destruct (Z.le_ge_cases e e') as [L | L]; [apply W; auto | ]. destruct (W m' e' m e) as [-> ->]; auto.
Qed.
Lemma size_inj : forall f g, is_float f -> is_float g -> f <> S754_nan -> g <> S754_nan -> negative f = negative g -> size f = size g -> f = g.
Proof.
  assert (P : 0 < 2 ^ (1024 + 1074)) by (apply Z.pow_pos_nonneg; lia).
  intros f g Hf Hg Nf Ng S E.
  destruct f as [s | s | | s m e]; try congruence; destruct g as [s' | s' | | s' m' e']; try congruence; cbn [negative] in S; subst s'; auto;
    try (exfalso; cbn [size] in E; rewrite E in P; apply (Z.lt_irrefl 0 P));
    try (exfalso; cbn [size] in E; rewrite <- E in P; apply (Z.lt_irrefl 0 P)).
  - exfalso. apply size_pos in Hg. cbn [size] in E, Hg. rewrite <- E in Hg. destruct Hg. apply (Z.lt_irrefl 0); auto.
  - exfalso. apply size_pos in Hg. cbn [size] in E, Hg. rewrite <- E in Hg. destruct Hg as [_ Hg]. apply (Z.lt_irrefl _ Hg).
  - exfalso. apply size_pos in Hf. cbn [size] in E, Hf. rewrite E in Hf. destruct Hf as [Hf _]. apply (Z.lt_irrefl _ Hf).
  - exfalso. apply size_pos in Hf. cbn [size] in E, Hf. rewrite E in Hf. destruct Hf as [_ Hf]. apply (Z.lt_irrefl _ Hf).
  - cbn [size] in E. destruct (finite_size_inj m e m' e') as [-> ->]; auto.
Qed.

(** An exact value is not changed. *)
Theorem rounds_exact : forall neg x q f g, 0 < q -> rounds neg x q f -> is_float g -> g <> S754_nan -> negative g = neg ->
  x = q * size g -> f = g.
Proof.
  intros neg x q f g Hq (Hf & Nf & Sf & H) Hg Ng Sg E. destruct (H g Hg Ng) as [K _]. apply size_inj; auto; [congruence | ].
  rewrite E, Z.sub_diag in K. nia.
Qed.

(** The next float *)
Lemma next_float : forall s m e, femin <= e <= 971 -> 0 <= m < 2 ^ 53 -> exists h, is_float h /\ h <> S754_nan /\ negative h = s /\
  size h = (m + 1) * 2 ^ (e + 1074) /\ (Z.even m = true -> 2 ^ 52 <= m \/ e = femin -> even_float h = false).
Proof.
  intros s m e He Hm.
  assert (C : forall m e, femin <= e <= 971 -> 0 < m < 2 ^ 53 -> exists h, is_float h /\ h <> S754_nan /\ negative h = s /\ size h = m * 2 ^ (e + 1074) /\
            (2 ^ 52 <= m \/ e = femin -> even_float h = Z.even m)).
  { clear. intros m e He Hm.
    (* normalize: shift left until canonical *)
    assert (G : forall n m e, femin <= e -> e = femin + Z.of_nat n -> e <= 971 -> 0 < m < 2 ^ 53 ->
              exists h, is_float h /\ h <> S754_nan /\ negative h = s /\ size h = m * 2 ^ (e + 1074) /\ (2 ^ 52 <= m \/ e = femin -> even_float h = Z.even m)).
    { induction n as [ | n IH]; intros m0 e0 L0 E0 U0 M0.
      - destruct m0 as [ | p | p]; try lia. exists (S754_finite s p e0). split; [unfold is_float, valid_binary; apply canonical_iff; lia | ].
        repeat split; try discriminate; auto.
      - destruct (Z.le_gt_cases (2 ^ 52) m0) as [B | B].
        + destruct m0 as [ | p | p]; try lia. exists (S754_finite s p e0). split; [unfold is_float, valid_binary; apply canonical_iff; lia | ].
          repeat split; try discriminate; auto.
        + destruct (IH (2 * m0) (e0 - 1)) as (h & H1 & H2 & H3 & H4 & _); [lia.. | ].
          exists h. repeat split; auto; [ | lia]. rewrite H4. replace (e0 + 1074) with (1 + (e0 - 1 + 1074)) by lia.
          rewrite (Z.pow_add_r 2 1) by lia. change (2 ^ 1) with 2. ring. }
    apply (G (Z.to_nat (e - femin)) m e); lia. }
  destruct (Z.eq_dec (m + 1) (2 ^ 53)) as [E | E].
  - destruct (Z.eq_dec e 971) as [-> | Ne].
    + exists (S754_infinity s). rewrite E. split; [reflexivity | ]. split; [discriminate | ]. split; [reflexivity | ]. split.
      * cbn [size]. rewrite <- Z.pow_add_r by lia. f_equal.
      * intros Ev. exfalso. replace m with (2 ^ 53 - 1) in Ev by lia. discriminate Ev.
    + destruct (C (2 ^ 52) (e + 1)) as (h & H1 & H2 & H3 & H4 & _); [lia.. | ]. exists h. rewrite E, H4. repeat split; auto.
      * replace (e + 1 + 1074) with (1 + (e + 1074)) by lia. rewrite (Z.pow_add_r 2 1), Z.mul_assoc by lia. reflexivity.
      * intros Ev. exfalso. replace m with (2 ^ 53 - 1) in Ev by lia. discriminate Ev.
  - destruct (C (m + 1) e) as (h & H1 & H2 & H3 & H4 & H5); [lia.. | ]. exists h. repeat split; auto. intros Ev Hn.
    rewrite H5 by lia. rewrite Z.add_1_r, Z.even_succ, <- Z.negb_even, Ev. auto.
Qed.

(** The rounded value is unique. *)
Theorem rounds_unique : forall neg x q f g, 0 < q -> rounds neg x q f -> rounds neg x q g -> f = g.
Proof.
  assert (W : forall neg x q f g, 0 < q -> rounds neg x q f -> rounds neg x q g -> size f < size g -> False).
  { intros neg x q f g Hq (Hf & Nf & Sf & Kf) (Hg & Ng & Sg & Kg) L.
    destruct (Kf g Hg Ng) as [K1 K2]. destruct (Kg f Hf Nf) as [K3 K4].
    assert (E : Z.abs (x - q * size f) = Z.abs (x - q * size g)) by lia.
    destruct (K2 E) as [K | Ef]; [lia | ]. symmetry in E. destruct (K4 E) as [K | Eg]; [lia | ].
    assert (M : 2 * x = q * size f + q * size g) by nia.
    assert (S : exists m e, femin <= e <= 971 /\ 0 <= m < 2 ^ 53 /\ size f = m * 2 ^ (e + 1074) /\ Z.even m = true /\ (2 ^ 52 <= m \/ e = femin)).
    { destruct f as [s | s | | s m e]; [ | | congruence | ].
      - exists 0, femin. repeat split; auto; lia.
      - exfalso. assert (G := size_max g Hg). cbn [size] in L. apply (Z.lt_irrefl _ (Z.lt_le_trans _ _ _ L G)).
      - exists (Zpos m), e. unfold is_float, valid_binary in Hf. apply canonical_iff in Hf as (R & U & N). repeat split; auto; try lia. }
    destruct S as (m & e & He & Hm & Es & Ev & Hn).
    destruct (next_float neg m e He Hm) as (h & Hh & Nh & Sh & Zh & Ph). specialize (Ph Ev Hn).
    set (U := 2 ^ (e + 1074)) in *. assert (HU : 0 < U) by (apply Z.pow_pos_nonneg; lia).
    destruct (Z.lt_trichotomy (size g) (size h)) as [T | [T | T]].
    - destruct (size_grid g e Hg Ng He) as [[k Ek] | [Lg Ne]].
      + fold U in Ek. rewrite Ek, Es in L. rewrite Ek, Zh in T. apply Z.mul_lt_mono_pos_r in L, T; lia.
      + fold U in Lg. destruct Hn as [Hn | Hn]; [ | congruence]. assert (2 ^ 52 * U <= m * U) by (apply Z.mul_le_mono_nonneg_r; lia). lia.
    - assert (g = h) by (apply size_inj; auto; congruence). congruence.
    - destruct (Kf h Hh Nh) as [K5 _]. nia. }
  intros neg x q f g Hq Hf Hg. destruct (Z.lt_trichotomy (size f) (size g)) as [T | [T | T]]; [destruct (W neg x q f g Hq Hf Hg T) | | destruct (W neg x q g f Hq Hg Hf T)].
  destruct Hf as (F1 & F2 & F3 & _), Hg as (G1 & G2 & G3 & _). apply size_inj; auto. congruence.
Qed.

(** ** Conversions *)
Lemma rounds_scale : forall neg x q f c, 0 < c -> rounds neg (x * c) (q * c) f -> rounds neg x q f.
Proof.
  intros neg x q f c Hc (H1 & H2 & H3 & H4). repeat split; auto; destruct (H4 g) as [K1 K2]; auto; clear H4.
  - replace (x * c - q * c * size f) with ((x - q * size f) * c) in K1 by ring. replace (x * c - q * c * size g) with ((x - q * size g) * c) in K1 by ring.
    rewrite !Z.abs_mul, (Z.abs_eq c) in K1 by lia. nia.
  - intros E. apply K2.
    replace (x * c - q * c * size f) with ((x - q * size f) * c) by ring. replace (x * c - q * c * size g) with ((x - q * size g) * c) by ring.
    rewrite !Z.abs_mul. rewrite E. auto.
Qed.
Lemma rounds_sign : forall neg x q f, rounds false x q f ->
  rounds neg x q (match f with S754_finite _ m e => S754_finite neg m e | S754_infinity _ => S754_infinity neg | S754_zero _ => S754_zero neg | f => f end).
Proof.
  intros neg x q f (H1 & H2 & H3 & H4). destruct f; [ | | congruence | ]; (split; [exact H1 | split; [discriminate | split; [reflexivity | exact H4]]]).
Qed.
Lemma rounds_zero : forall neg q, rounds neg 0 q (S754_zero neg).
Proof.
  intros neg q. split; [reflexivity | ]. split; [discriminate | ]. split; [reflexivity | ]. intros g Hg Ng. cbn [size even_float].
  rewrite Z.mul_0_r. split; [ | auto]. cbn [Z.sub]. apply Z.abs_nonneg.
Qed.

Lemma shift_digits : forall k p, Zdigits2 (Zpos (shift_pos k p)) = Zdigits2 (Zpos p) + Zpos k.
Proof.
  intros k p. assert (P := Zdigits_pos (Zpos p) ltac:(lia)). apply Zdigits_unique; [lia | ]. rewrite shift_pos_correct, Z.pow_pos_fold.
  assert (D1 := Zdigits_lt (Zpos p) ltac:(lia)). assert (D2 := Zdigits_ge (Zpos p) ltac:(lia)).
  assert (0 < 2 ^ Zpos k) by (apply Z.pow_pos_nonneg; lia).
  replace (Zdigits2 (Zpos p) + Zpos k - 1) with (Zdigits2 (Zpos p) - 1 + Zpos k) by lia. rewrite !Z.pow_add_r by lia. nia.
Qed.
Theorem binary_round_ok : forall sx p, rounds sx (Zpos p * 2 ^ 1074) 1 (binary_round 53 1024 sx p 0).
Proof.
  intros sx p. unfold binary_round, shl_align. set (d := fexp 53 1024 (Zpos (digits2_pos p) + 0)).
  assert (Ed : d = fexp 53 1024 (Zdigits2 (Zpos p) + 0)) by reflexivity.
  assert (Hd : femin <= d) by (rewrite Ed, fexp_eq; lia).
  assert (R : forall m e, rounds_at femin sx (Zpos p * 2 ^ 1074) 1 (binary_round_aux 53 1024 sx m e loc_Exact) ->
            rounds sx (Zpos p * 2 ^ 1074) 1 (binary_round_aux 53 1024 sx m e loc_Exact)).
  { intros m e K. unfold rounds_at in K. replace (1 * 2 ^ (femin - femin)) with 1 in K by (rewrite Z.sub_diag; reflexivity). exact K. }
  destruct (d - 0) as [ | k | k] eqn:E; apply R; apply round_aux_ok; try lia; cbn [inb].
  - f_equal.
  - rewrite Z.mul_1_l. reflexivity.
  - rewrite shift_pos_correct, Z.pow_pos_fold, Z.mul_1_l. rewrite (Z.mul_comm (2 ^ _)), <- Z.mul_assoc, <- Z.pow_add_r by lia. f_equal. f_equal. lia.
  - rewrite shift_digits. rewrite Ed, !fexp_eq in *. lia.
Qed.

Lemma new_location_ok : forall x w q M r, 0 < w -> 0 <= r < M -> x = (q * M + r) * w -> inb x (M * w) q (new_location M r).
Proof.
  intros x w q M r Hw Hr E. unfold new_location, new_location_even, new_location_odd.
  assert (B : r <> 0 -> q * (M * w) < x < (q + 1) * (M * w)) by (intros; subst x; split; nia).
  assert (C : (2 * x ?= (2 * q + 1) * (M * w)) = (2 * r ?= M)).
  { subst x. replace (2 * ((q * M + r) * w)) with (2 * r * w + 2 * q * M * w) by ring. replace ((2 * q + 1) * (M * w)) with (M * w + 2 * q * M * w) by ring.
    rewrite !(Z.add_comm _ (2 * q * M * w)), Zcompare_plus_compat. symmetry.
    destruct (Z.compare_spec (2 * r) M); symmetry; rewrite ?Z.compare_lt_iff, ?Z.compare_gt_iff, ?Z.compare_eq_iff; nia. }
  destruct (Z.even M) eqn:Ev; destruct (Zeq_bool r 0) eqn:Er; try (apply Zeq_is_eq_bool in Er; subst r; cbn [inb]; subst x; ring);
    apply Zeq_bool_neq in Er; split; auto.
  rewrite C. assert (Mo : Z.odd M = true) by (rewrite <- Z.negb_even, Ev; auto). apply Z.odd_spec in Mo as [k Ek].
  destruct (Z.compare_spec (2 * r + 1) M); rewrite ?Z.compare_lt_iff, ?Z.compare_gt_iff; lia.
Qed.
Theorem divide_ok : forall neg p M, 0 < M ->
  rounds neg (Zpos p * 2 ^ 1074) M (let '(q, e', l) := SFdiv_core_binary 53 1024 (Zpos p) 0 M 0 in binary_round_aux 53 1024 neg q e' l).
Proof.
  intros neg p M HM. unfold SFdiv_core_binary.
  set (e' := Z.min (fexp 53 1024 (Zdigits2 (Zpos p) + 0 - (Zdigits2 M + 0))) (0 - 0)).
  assert (He : femin <= e' <= 0) by (unfold e'; rewrite fexp_eq; lia).
  set (s := 0 - 0 - e'). assert (Hs : 0 <= s) by lia.
  assert (Em : match s with Z0 => Zpos p | Zpos _ => Z.shiftl (Zpos p) s | Zneg _ => 0 end = Zpos p * 2 ^ s).
  { destruct s as [ | k | k] eqn:Es; [rewrite Z.mul_1_r; auto | rewrite Z.shiftl_mul_pow2 by lia; auto | lia]. }
  rewrite Em. clear Em. assert (D := Z_div_mod (Zpos p * 2 ^ s) M ltac:(lia)).
  destruct (Z.div_eucl (Zpos p * 2 ^ s) M) as [q r]. destruct D as [D1 D2].
  assert (Hp : 0 < 2 ^ s) by (apply Z.pow_pos_nonneg; lia).
  assert (Hq : 0 <= q) by nia.
  assert (R : rounds_at femin neg (Zpos p * 2 ^ 1074) M (binary_round_aux 53 1024 neg q e' (new_location M r))).
  2:{ unfold rounds_at in R. replace (M * 2 ^ (femin - femin)) with M in R by (rewrite Z.sub_diag, Z.pow_0_r; ring). exact R. }
  apply round_aux_ok; try lia.
  - apply new_location_ok; [apply Z.pow_pos_nonneg; lia | lia | ]. rewrite (Z.mul_comm q M), <- D1, <- Z.mul_assoc, <- Z.pow_add_r by lia. f_equal. f_equal. lia.
  - (* the quotient has enough digits *)
    rewrite fexp_eq. assert (Fe : e' <= Z.max (Zdigits2 (Zpos p) - Zdigits2 M - 53) femin) by (unfold e'; rewrite fexp_eq; lia).
    destruct (Z.le_gt_cases e' femin) as [Lf | Lf]; [lia | ].
    set (d := Zdigits2 (Zpos p) - Zdigits2 M) in *.
    assert (Ld : 0 <= d - 1 - e') by lia.
    (* p / M > 2^(d-1) *)
    assert (G1 := Zdigits_ge (Zpos p) ltac:(lia)). assert (G2 := Zdigits_lt M ltac:(lia)). assert (G3 := Zdigits_pos M HM).
    assert (G4 := Zdigits_pos (Zpos p) ltac:(lia)).
    assert (Q : 2 ^ (d - 1 - e') <= q).
    { apply Z.lt_succ_r. apply (Z.mul_lt_mono_pos_l M); [lia | ].
      apply Z.lt_le_trans with (2 ^ Zdigits2 M * 2 ^ (d - 1 - e')).
      - apply Z.mul_lt_mono_pos_r; [apply Z.pow_pos_nonneg; lia | auto].
      - rewrite <- Z.pow_add_r by lia. replace (Zdigits2 M + (d - 1 - e')) with (Zdigits2 (Zpos p) - 1 + s) by lia.
        rewrite Z.pow_add_r by lia. nia. }
    apply Zdigits_ge' in Q; lia.
Qed.

(** float(s) of a decimal number is correctly rounded. *)
Theorem float_of_decimal_rounds : forall neg m e,
  rounds neg (Z.of_N m * 10 ^ Z.max e 0 * 2 ^ 1074) (10 ^ Z.max (- e) 0) (float_of_decimal neg m e).
Proof.
  intros neg [ | p] e; cbn [float_of_decimal]; [apply rounds_zero | ]. destruct (Z.leb_spec 0 e) as [L | L].
  - replace (Z.max e 0) with e by lia. replace (Z.max (- e) 0) with 0 by lia. change (10 ^ 0) with 1. change (Z.of_N (Npos p)) with (Zpos p).
    assert (0 < 10 ^ e) by (apply Z.pow_pos_nonneg; lia).
    assert (P : 0 < Zpos p * 10 ^ e) by lia. destruct (Zpos p * 10 ^ e) as [ | k | k]; try lia.
    assert (R := binary_round_ok false k). cbn [binary_normalize]. apply (rounds_sign neg) in R.
    destruct (binary_round 53 1024 false k 0) as [z | z | | z m x] eqn:E; try exact R.
    (* a positive integer does not become zero *)
    exfalso. destruct R as (_ & _ & _ & R). assert (Z1 := Z.pow_pos_nonneg 2 1074 ltac:(lia) ltac:(lia)).
    destruct (next_float false 0 0) as (h & Hh & Nh & _ & Sh & _); [lia | lia | ]. destruct (R h Hh Nh) as [K _].
    cbn [size] in K. rewrite Sh in K. rewrite Z.mul_0_r, !Z.add_0_l, !Z.mul_1_l, Z.sub_0_r in K. remember (2 ^ 1074) as t. nia.
  - replace (Z.max e 0) with 0 by lia. replace (Z.max (- e) 0) with (- e) by lia. change (10 ^ 0) with 1. rewrite Z.mul_1_r. apply divide_ok.
    apply Z.pow_pos_nonneg; lia.
Qed.
Corollary float_of_decimal_valid : forall neg m e, is_float (float_of_decimal neg m e).
Proof. intros. apply float_of_decimal_rounds. Qed.

(** float(z) of an int: correctly rounded, OverflowError if it is too large. *)
Theorem float_of_Z_rounds : forall z, match float_of_Z z with
  | Ok f => rounds (z <? 0) (Z.abs z * 2 ^ 1074) 1 f /\ is_finite f
  | Err e => e = EOverflow /\ rounds (z <? 0) (Z.abs z * 2 ^ 1074) 1 (S754_infinity (z <? 0))
  end.
Proof.
  intros z. unfold float_of_Z.
  assert (R : rounds (z <? 0) (Z.abs z * 2 ^ 1074) 1 (binary_normalize 53 1024 z 0 false)).
  { destruct z as [ | p | p]; cbn [binary_normalize Z.abs]; [apply (rounds_zero false) | apply binary_round_ok | apply binary_round_ok]. }
  destruct (binary_normalize 53 1024 z 0 false) as [s | s | | s m e].
  - split; [exact R | exact I].
  - split; auto. assert (S := R). destruct S as (_ & _ & S & _). cbn [negative] in S. subst s. exact R.
  - destruct R as (_ & R & _). congruence.
  - split; [exact R | exact I].
Qed.

(** A product is correctly rounded. *)
Theorem fmul_rounds : forall a b, is_float a -> is_float b -> is_finite a -> is_finite b ->
  rounds (xorb (negative a) (negative b)) (size a * size b) (2 ^ 1074) (fmul a b).
Proof.
  intros a b Ha Hb Fa Fb. unfold fmul, SFmul.
  destruct a as [sa | sa | | sa ma ea]; cbn [is_finite] in Fa; try tauto; destruct b as [sb | sb | | sb mb eb]; cbn [is_finite] in Fb; try tauto; cbn [negative].
  - apply rounds_zero.
  - apply rounds_zero.
  - cbn [size]. rewrite Z.mul_0_r. apply rounds_zero.
  - unfold is_float, valid_binary in Ha, Hb. apply canonical_iff in Ha as (Ra & Ua & Na). apply canonical_iff in Hb as (Rb & Ub & Nb).
    assert (R : rounds_at (femin + femin) (xorb sa sb) (Zpos (ma * mb) * 2 ^ (ea + eb - (femin + femin))) 1
                 (binary_round_aux 53 1024 (xorb sa sb) (Zpos (ma * mb)) (ea + eb) loc_Exact)).
    { apply round_aux_ok; try lia; [cbn [inb]; ring | ]. rewrite fexp_eq.
      destruct Na as [-> | Na]; [destruct Nb as [-> | Nb]; [lia | ] | ].
      - assert (52 < Zdigits2 (Zpos (ma * mb))) by (apply Zdigits_ge'; [lia | nia]). lia.
      - assert (52 < Zdigits2 (Zpos (ma * mb))) by (apply Zdigits_ge'; [lia | nia]). lia. }
    unfold rounds_at in R. rewrite Z.mul_1_l in R. replace (femin - (femin + femin)) with 1074 in R by lia.
    cbn [size]. replace (Zpos ma * 2 ^ (ea + 1074) * (Zpos mb * 2 ^ (eb + 1074))) with (Zpos (ma * mb) * 2 ^ (ea + eb - (femin + femin))); [exact R | ].
    rewrite Pos2Z.inj_mul. replace (ea + eb - (femin + femin)) with ((ea + 1074) + (eb + 1074)) by lia. rewrite Z.pow_add_r by lia. ring.
Qed.
Corollary fmul_valid : forall a b, is_float a -> is_float b -> is_float (fmul a b).
Proof.
  intros a b Ha Hb. destruct a as [sa | sa | | sa ma ea]; destruct b as [sb | sb | | sb mb eb]; try reflexivity.
  apply (fmul_rounds (S754_finite sa ma ea) (S754_finite sb mb eb)); auto; exact I.
Qed.
