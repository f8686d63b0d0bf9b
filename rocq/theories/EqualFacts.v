(** Proofs about Python's == on JSON values. *)
From Verif Require Import PyBase PyFacts PyNum Json SpecEditor SpecEqual.
From Coq Require Import SpecFloat QArith Qpower.
Open Scope string_scope.

Lemma two_power : forall m e e', (e <= e')%Z -> (inject_Z m * (2 # 1) ^ e' == inject_Z (m * 2 ^ (e' - e)) * (2 # 1) ^ e)%Q.
Proof.
  intros m e e' H. replace e' with ((e' - e) + e)%Z at 1 by lia. rewrite Qpower_plus by discriminate. rewrite inject_Z_mult, Zpower_Qpower by lia. change (inject_Z 2) with (2 # 1). ring.
Qed.
Lemma dyadic_equal : forall m e n f, dyadic_eqb (m, e) (n, f) = true <-> (inject_Z m * (2 # 1) ^ e == inject_Z n * (2 # 1) ^ f)%Q.
Proof.
  intros m e n f. unfold dyadic_eqb. cbn [fst snd]. rewrite Z.eqb_eq. set (g := Z.min e f). rewrite (two_power m g e), (two_power n g f) by (unfold g; lia). split.
  - intros ->. reflexivity.
  - intros H. apply Qmult_inj_r in H; [ | apply Qpower_not_0; discriminate]. apply inject_Z_injective. exact H.
Qed.
Definition dy (a : Json.num) : option (Z * Z) := match a with NInt z => Some (z, 0%Z) | NFloat f => dyadic f end.
Definition dy_value (p : Z * Z) : Q := (inject_Z (fst p) * (2 # 1) ^ snd p)%Q.
Lemma value_dy : forall v, match number_value v, as_num v with
  | Some x, Some a => exists p, dy a = Some p /\ (x == dy_value p)%Q
  | None, Some a => dy a = None
  | Some _, None => False
  | None, None => True
  end.
Proof.
  intros v. destruct v as [ | b | z | f | s | l | d]; cbn; auto.
  - eexists. split; [reflexivity | ]. unfold dy_value. destruct b; reflexivity.
  - eexists. split; [reflexivity | ]. unfold dy_value. cbn. ring.
  - destruct f as [s | s | | s m e]; cbn; auto; eexists; (split; [reflexivity | ]); unfold dy_value; cbn; [reflexivity | ]. destruct s; reflexivity.
Qed.
Lemma num_eqb_spec : forall (a b : Json.num), num_eqb a b = true <->
  (exists p q, dy a = Some p /\ dy b = Some q /\ dyadic_eqb p q = true) \/ (exists neg, a = NFloat (S754_infinity neg) /\ b = NFloat (S754_infinity neg)).
Proof.
  assert (S : forall p q, dyadic_eqb p q = dyadic_eqb q p). { intros [m e] [n f]. apply eq_true_iff_eq. rewrite !dyadic_equal. split; intros H; symmetry; auto. }
  intros a b. split.
  - destruct a as [x | f], b as [y | g]; cbn [num_eqb dy]; intros H.
    + left. eexists _, _. split; [reflexivity | ]. split; [reflexivity | ]. apply Z.eqb_eq in H. subst y. apply dyadic_equal. reflexivity.
    + unfold zfeqb in H. destruct (dyadic g) as [q | ]; [ | discriminate]. left. eauto.
    + unfold zfeqb in H. destruct (dyadic f) as [q | ]; [ | discriminate]. left. rewrite S in H. eauto.
    + unfold feqb in H. destruct f as [s | s | | s m e], g as [s' | s' | | s' m' e']; try discriminate;
        try (left; eexists _, _; split; [reflexivity | split; [reflexivity | exact H]]).
      right. apply Bool.eqb_prop in H. subst. eauto.
  - intros [(p & q & Hp & Hq & H) | (neg & -> & ->)]; [ | cbn; destruct neg; reflexivity].
    destruct a as [x | f], b as [y | g]; cbn [num_eqb dy] in *.
    + injection Hp as <-. injection Hq as <-. unfold dyadic_eqb in H. cbn in H. rewrite !Z.mul_1_r in H. exact H.
    + injection Hp as <-. unfold zfeqb. rewrite Hq. auto.
    + injection Hq as <-. unfold zfeqb. rewrite Hp. rewrite S. auto.
    + unfold feqb. rewrite Hp, Hq. destruct f, g; try discriminate; auto.
Qed.
Lemma number_equal : forall v w a b, as_num v = Some a -> as_num w = Some b -> (num_eqb a b = true <->
  (exists x y, number_value v = Some x /\ number_value w = Some y /\ (x == y)%Q) \/ (exists neg, v = VFloat (S754_infinity neg) /\ w = VFloat (S754_infinity neg))).
Proof.
  intros v w a b Ha Hb. rewrite num_eqb_spec. pose proof (value_dy v) as V. pose proof (value_dy w) as W. rewrite Ha in V. rewrite Hb in W.
  assert (I : forall v a neg, as_num v = Some a -> (a = NFloat (S754_infinity neg) <-> v = VFloat (S754_infinity neg))).
  { clear. intros v a neg H. destruct v; try discriminate; injection H as <-; split; intros E; try discriminate; congruence. }
  split.
  - intros [(p & q & Hp & Hq & H) | (neg & Ea & Eb)]; [left | right; exists neg; split; eapply I; eauto].
    destruct (number_value v) as [x | ]; [ | congruence]. destruct (number_value w) as [y | ]; [ | congruence].
    destruct V as (p' & P1 & P2), W as (q' & Q1 & Q2). rewrite Hp in P1. injection P1 as <-. rewrite Hq in Q1. injection Q1 as <-. exists x, y. split; [auto | ]. split; [auto | ]. rewrite P2, Q2. destruct p as [m e], q as [n f]. apply dyadic_equal. exact H.
  - intros [(x & y & Hx & Hy & H) | (neg & Ea & Eb)]; [left | right; exists neg; split; eapply I; eauto].
    rewrite Hx in V. rewrite Hy in W. destruct V as (p & P1 & P2), W as (q & Q1 & Q2). exists p, q. split; [auto | ]. split; [auto | ]. rewrite P2, Q2 in H. destruct p, q. apply dyadic_equal. auto.
Qed.
Lemma equal_numbers : forall v w a, as_num v = Some a -> (equal v w <->
  (exists x y, number_value v = Some x /\ number_value w = Some y /\ (x == y)%Q) \/ (exists neg, v = VFloat (S754_infinity neg) /\ w = VFloat (S754_infinity neg))).
Proof.
  intros v w a Ha. split.
  - intros H. inversion H; subst; try discriminate; eauto 8.
  - intros [(x & y & Hx & Hy & H) | (neg & -> & ->)]; [eapply equal_number; eauto | constructor].
Qed.
Lemma value_num : forall v x, number_value v = Some x -> exists a, as_num v = Some a.
Proof. intros v x H. destruct v; try discriminate; cbn; eauto. Qed.
Lemma dict_go : forall y x, (fix go (x : list (string * val)) : bool :=
         match x with [] => true | (k, a') :: x' => match dget k y with Some b' => py_eq a' b' | None => false end && go x' end) x = true <->
  forall k v, In (k, v) x -> exists w, dget k y = Some w /\ py_eq v w = true.
Proof.
  intros y x. induction x as [ | [k v] x IH]; [split; [intros _ k v [] | auto] | ]. rewrite andb_true_iff, IH. split.
  - intros [H1 H2] k' v' [E | H]; [injection E as <- <- | auto]. destruct (dget k y) as [w | ]; [eauto | discriminate].
  - intros H. split; [ | intros; apply H; right; auto]. destruct (H k v (or_introl eq_refl)) as (w & -> & E). auto.
Qed.
Theorem py_eq_equal : forall v w, proper v -> proper w -> (py_eq v w = true <-> equal v w).
Proof.
  induction v as [ | b | z | f | s | l IH | d IH] using val_ind'; intros w Pv Pw.
  - destruct w; cbn; split; intros H; try discriminate; try constructor; auto; inversion H; subst; try discriminate; auto.
  - rewrite (equal_numbers (VBool b) w _ eq_refl). destruct (as_num w) as [c | ] eqn:Ew.
    + rewrite <- (number_equal (VBool b) w _ _ eq_refl Ew). destruct w; try discriminate; cbn in *; injection Ew as <-; reflexivity.
    + destruct w; try discriminate; cbn; split; try discriminate; intros [(x & y & _ & C & _) | (neg & C & _)]; discriminate.
  - rewrite (equal_numbers (VInt z) w _ eq_refl). destruct (as_num w) as [c | ] eqn:Ew.
    + rewrite <- (number_equal (VInt z) w _ _ eq_refl Ew). destruct w; try discriminate; cbn in *; injection Ew as <-; reflexivity.
    + destruct w; try discriminate; cbn; split; try discriminate; intros [(x & y & _ & C & _) | (neg & C & _)]; discriminate.
  - rewrite (equal_numbers (VFloat f) w _ eq_refl). destruct (as_num w) as [c | ] eqn:Ew.
    + rewrite <- (number_equal (VFloat f) w _ _ eq_refl Ew). destruct w; try discriminate; cbn in *; injection Ew as <-; reflexivity.
    + destruct w; try discriminate; cbn; split; try discriminate; intros [(x & y & _ & C & _) | (neg & _ & C)]; discriminate.
  - destruct w; cbn; split; intros H; try discriminate; try (inversion H; subst; try discriminate; fail).
    + apply seqb_eq in H. subst. constructor.
    + inversion H; subst; try discriminate. apply seqb_eq. auto.
  - destruct w as [ | | | | | m | ]; cbn [py_eq]; try (split; [discriminate | intros H; inversion H; subst; discriminate]).
    inversion Pv as [ | | | | | ? Fl | ]; subst. inversion Pw as [ | | | | | ? Fm | ]; subst.
    transitivity (Forall2 equal l m); [ | split; intros H; [constructor; auto | inversion H; subst; [discriminate | auto]]].
    clear Pv Pw. revert m Fm. induction l as [ | x l IHl]; intros m Fm; destruct m as [ | y m]; try (split; [discriminate | intros H; inversion H]); [split; auto | ].
    inversion IH; subst. inversion Fl; subst. inversion Fm; subst. rewrite andb_true_iff, H1 by auto. rewrite IHl by auto. split; [intros [A B]; constructor; auto | intros H; inversion H; auto].
  - destruct w as [ | | | | | | e]; cbn [py_eq]; try (split; [discriminate | intros H; inversion H; subst; discriminate]).
    inversion Pv as [ | | | | | | ? Nd Fd]; subst. inversion Pw as [ | | | | | | ? Ne Fe]; subst. rewrite andb_true_iff, dict_go, Nat.eqb_eq. rewrite Forall_forall in IH.
    split.
    + intros [Len H]. assert (Inc : incl (dkeys d) (dkeys e)).
      { intros k Hk. apply in_map_iff in Hk as ([k' v] & <- & Hk). destruct (H _ _ Hk) as (w & Hw & _). apply dget_some_in in Hw. apply (in_map fst) in Hw. auto. }
      constructor.
      * intros k. split; [apply Inc | ]. apply NoDup_length_incl; auto. unfold dkeys. rewrite !map_length. lia.
      * intros k v w Hv Hw. destruct (H _ _ Hv) as (w' & Hw' & E). rewrite (in_dget _ _ _ Ne Hw) in Hw'. injection Hw' as <-. apply (IH (k, v) Hv); eauto.
    + intros H. inversion H as [ | | ? ? x ? C | | | ? ? K V]; subst; [discriminate | ]. split.
      * assert (L : length (dkeys d) = length (dkeys e)). { apply Nat.le_antisymm; apply NoDup_incl_length; auto; intros k Hk; apply K; auto. } unfold dkeys in L. rewrite !map_length in L. auto.
      * intros k v Hv. assert (Hk : In k (dkeys e)) by (apply K; apply (in_map fst) in Hv; auto). apply in_map_iff in Hk as ([k' w] & Ek & Hw). cbn in Ek. subst k'.
        exists w. split; [apply in_dget; auto | ]. apply (IH (k, v) Hv); cbn; eauto.
Qed.

(** ** Reflexive except for NaN, symmetric and transitive *)
Lemma equal_refl : forall v, proper v -> (equal v v <-> no_nan v).
Proof.
  induction v as [ | b | z | f | s | l IH | d IH] using val_ind'; intros P.
  - split; constructor.
  - split; [constructor | ]. intros _. eapply equal_number; try reflexivity.
  - split; [constructor | ]. intros _. eapply equal_number; try reflexivity.
  - destruct f as [s | s | | s m e]; split; intros H; try (constructor; discriminate); try (eapply equal_number; reflexivity).
    + inversion H; subst. discriminate.
    + inversion H; subst. congruence.
  - split; constructor.
  - inversion P as [ | | | | | ? F | ]; subst. transitivity (Forall2 equal l l); [split; intros H; [inversion H; subst; [discriminate | auto] | constructor; auto] | ].
    transitivity (Forall no_nan l); [ | split; intros H; [constructor; auto | inversion H; auto]].
    clear P. induction l as [ | x l IHl]; [split; auto | ]. inversion IH; subst. inversion F; subst. specialize (IHl H2 H4). split; intros H; inversion H; subst; constructor; tauto.
  - inversion P as [ | | | | | | ? N F]; subst. rewrite Forall_forall in IH. split; intros H.
    + inversion H as [ | | ? ? x ? C | | | ? ? K V]; subst; [discriminate | ]. constructor. intros k v Hv. apply (IH (k, v) Hv); [cbn; eauto | cbn; eauto].
    + inversion H as [ | | | | | | ? V]; subst. constructor; [tauto | ]. intros k v w Hv Hw. assert (E : w = v) by (apply (in_dget _ _ _ N) in Hv; apply (in_dget _ _ _ N) in Hw; congruence).
      subst w. apply (IH (k, v) Hv); cbn; eauto.
Qed.
Lemma equal_sym : forall v w, equal v w -> equal w v.
Proof.
  induction v as [ | b | z | f | s | l IH | d IH] using val_ind'; intros w H; inversion H as [ | | ? ? x y Hx Hy E | | ? m F | ? e K V]; subst; try discriminate;
    try (constructor; fail); try (eapply equal_number; [exact Hy | exact Hx | symmetry; auto]).
  - constructor. clear H. induction F as [ | x y l m E F IHF]; [constructor | ]. inversion IH; subst. constructor; auto.
  - rewrite Forall_forall in IH. constructor; [intros k; symmetry; apply K | ]. intros k v w Hv Hw. apply (IH (k, w) Hw). eauto.
Qed.
Lemma equal_trans : forall v w u, proper w -> equal v w -> equal w u -> equal v u.
Proof.
  induction v as [ | b | z | f | s | l IH | d IH] using val_ind'; intros w u P H G; inversion H as [ | | ? ? x y Hx Hy E | | ? m F | ? e K V]; subst; try discriminate; auto;
    try (inversion G as [ | | ? ? x' y' Hx' Hy' E' | | | ]; subst; try discriminate; eapply equal_number; [exact Hx | exact Hy' | rewrite E; rewrite Hy in Hx'; injection Hx' as ->; auto]; fail).
  - inversion G as [ | | ? ? x' y' Hx' | | ? n F' | ]; subst; [discriminate | ]. constructor. inversion P as [ | | | | | ? Q | ]; subst. clear G H P. revert n F'. induction F as [ | x y l m E F IHF]; intros n F'; inversion F'; subst; [constructor | ].
    inversion IH; subst. inversion Q; subst. constructor; eauto.
  - inversion G as [ | | ? ? x' y' Hx' | | | ? u' K' V']; subst; [discriminate | ]. rewrite Forall_forall in IH. inversion P as [ | | | | | | ? N Q]; subst. constructor; [intros k; rewrite K; apply K' | ].
    intros k v w Hv Hw. assert (Hk : In k (dkeys e)) by (apply K; apply (in_map fst) in Hv; auto). apply in_map_iff in Hk as ([k' x] & Ek & Hx). cbn in Ek. subst k'. apply (IH (k, v) Hv) with x; eauto.
Qed.
Theorem py_eq_self : forall v, proper v -> (py_eq v v = true <-> no_nan v).
Proof. intros v P. rewrite py_eq_equal by auto. apply equal_refl. auto. Qed.
Theorem py_eq_sym : forall v w, proper v -> proper w -> py_eq v w = py_eq w v.
Proof. intros v w P Q. apply eq_true_iff_eq. rewrite !py_eq_equal by auto. split; apply equal_sym. Qed.
Theorem py_eq_trans : forall u v w, proper u -> proper v -> proper w -> py_eq u v = true -> py_eq v w = true -> py_eq u w = true.
Proof. intros u v w P Q R. rewrite !py_eq_equal by auto. intros A B. exact (equal_trans u v w Q A B). Qed.
