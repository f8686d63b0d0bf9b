(** Products of values, against the specification. *)
From Verif Require Import PyBase PyFacts PyNum Json SpecText SpecFloats FloatFacts SpecProduct.
From Coq Require Import SpecFloat.
Open Scope string_scope.

Lemma whole_iff : forall v z, as_num v = Some (NInt z) <-> whole v z.
Proof.
  intros v z. split.
  - destruct v as [ | [ | ] | x | x | x | x | x]; intros E; try discriminate; injection E as <-; constructor.
  - intros []; reflexivity.
Qed.
Lemma float_iff : forall v f, as_num v = Some (NFloat f) <-> v = VFloat f.
Proof.
  intros v f. split; [destruct v as [ | [ | ] | x | x | x | x | x]; intros E; try discriminate; injection E as <-; auto | intros ->; auto].
Qed.
Lemma whole_factor : forall v z f, whole v z -> float_of_Z z = Ok f -> factor v f.
Proof. intros v z f W E. pose proof (float_of_Z_rounds z) as R. rewrite E in R. destruct R. econstructor; eauto. Qed.
Lemma factor_of : forall v z f, whole v z -> factor v f -> float_of_Z z = Ok f.
Proof.
  intros v z f W F. destruct F as [f | v z' f W' F R]; [inversion W | ]. apply whole_iff in W, W'. rewrite W in W'. injection W' as <-.
  pose proof (float_of_Z_rounds z) as Q. destruct (float_of_Z z) as [g | e].
  - f_equal. eapply rounds_unique; [ | apply Q | exact R]; lia.
  - destruct Q as [_ Q]. assert (X : S754_infinity (z <? 0)%Z = f) by (eapply rounds_unique; eauto; lia). subst f. destruct F.
Qed.
Lemma fmul_product : forall f g, float_product f g (fmul f g).
Proof.
  intros f g. destruct f as [sf | sf | | sf mf ef], g as [sg | sg | | sg mg eg]; try (apply product_nan; solve [left; reflexivity | right; reflexivity]);
    try (apply product_finite; [exact I | exact I | intros; apply fmul_rounds; solve [assumption | exact I]]);
    try (apply product_undefined; solve [left; split; eexists; reflexivity | right; split; eexists; reflexivity]);
    (match goal with |- float_product ?f ?g _ => refine (product_infinite f g _ _ _) end; [discriminate | discriminate | ]);
    first [left; split; [eexists; reflexivity | intros [s E]; discriminate] | right; split; [intros [s E]; discriminate | eexists; reflexivity]].
Qed.
Lemma product_fmul : forall f g r, is_float f -> is_float g -> float_product f g r -> r = fmul f g.
Proof.
  intros f g r Vf Vg H. destruct H as [f g [-> | ->] | f g [[[s ->] [t ->]] | [[s ->] [t ->]]] | f g Nf Ng H | f g r Ff Fg R]; auto.
  - destruct f; auto.
  - destruct H as [[[s ->] Z] | [Z [s ->]]].
    + destruct g; auto; [destruct Z; eexists; reflexivity | congruence].
    + destruct f; auto; [destruct Z; eexists; reflexivity | congruence].
  - eapply rounds_unique; [ | apply R; auto | apply fmul_rounds; auto]. apply Z.pow_pos_nonneg; lia.
Qed.
Lemma repeated_concat : forall A n (l : list A), repeated n l = concat (repeat l n).
Proof. intros A n l. induction n as [ | n IH]; cbn [repeated repeat concat]; congruence. Qed.
Lemma repeated_string : forall n s, unchars (repeated n (chars s)) = String.concat "" (repeat s n).
Proof.
  intros n s. apply chars_inj. rewrite chars_unchars. induction n as [ | n IH]; auto. cbn [repeated repeat String.concat].
  destruct n as [ | n]; [apply app_nil_r | ]. rewrite IH. cbn [repeat]. rewrite chars_app. cbn [append]. auto.
Qed.
Lemma times_iff : forall A z (l l' : list A), times z l = Ok l' <-> countable z /\ l' = concat (repeat l (Z.to_nat z)).
Proof.
  intros A z l l'. unfold times, countable. rewrite repeated_concat. destruct ((_ && _)%bool) eqn:E.
  - apply andb_true_iff in E as [E1 E2]. apply Z.leb_le in E1. apply Z.ltb_lt in E2. split; [intros X; injection X as <-; auto | intros [_ ->]; auto].
  - split; [discriminate | ]. intros [[E1 E2] _]. apply Z.leb_le in E1. apply Z.ltb_lt in E2. rewrite E1, E2 in E. discriminate.
Qed.
Lemma times_big : forall A z (l : list A) e, times z l = Err e -> e = EOverflow /\ ~ countable z.
Proof.
  intros A z l e E. assert (N : ~ countable z). { intros C. pose proof (proj2 (times_iff A z l _) (conj C eq_refl)). congruence. }
  unfold times in E. destruct (_ && _)%bool; [discriminate | injection E as <-; auto].
Qed.
Lemma times_string : forall z s, (let! l := times z (chars s) in Ok (VStr (unchars l))) =
  if ((- 2 ^ 63 <=? z) && (z <? 2 ^ 63))%Z then Ok (VStr (String.concat "" (repeat s (Z.to_nat z)))) else Err EOverflow.
Proof. intros z s. unfold times. destruct (_ && _)%bool; auto. cbn [bind]. rewrite repeated_string. auto. Qed.
Lemma times_list : forall z l, (let! l' := times z l in Ok (VList l')) =
  if ((- 2 ^ 63 <=? z) && (z <? 2 ^ 63))%Z then Ok (VList (concat (repeat l (Z.to_nat z)))) else Err EOverflow.
Proof. intros z s. unfold times. destruct (_ && _)%bool; auto. cbn [bind]. rewrite repeated_concat. auto. Qed.
Lemma countable_iff : forall z, ((- 2 ^ 63 <=? z) && (z <? 2 ^ 63))%Z = true <-> countable z.
Proof. intros z. unfold countable. rewrite andb_true_iff, Z.leb_le, Z.ltb_lt. tauto. Qed.

(** The cases of a product *)
Lemma mul_ints : forall a b x y, whole a x -> whole b y -> py_mul a b = Ok (VInt (x * y)).
Proof. intros a b x y A B. apply whole_iff in A, B. unfold py_mul. rewrite A, B. auto. Qed.
Lemma mul_int_float : forall a x g, whole a x -> py_mul a (VFloat g) = let! f := float_of_Z x in Ok (VFloat (fmul f g)).
Proof. intros a x g A. apply whole_iff in A. unfold py_mul. rewrite A. auto. Qed.
Lemma mul_float_int : forall f b y, whole b y -> py_mul (VFloat f) b = let! g := float_of_Z y in Ok (VFloat (fmul f g)).
Proof. intros f b y B. apply whole_iff in B. unfold py_mul. rewrite B. auto. Qed.
Lemma mul_str_l : forall s b z, whole b z -> py_mul (VStr s) b = let! l := times z (chars s) in Ok (VStr (unchars l)).
Proof. intros s b z []; reflexivity. Qed.
Lemma mul_str_r : forall s b z, whole b z -> py_mul b (VStr s) = let! l := times z (chars s) in Ok (VStr (unchars l)).
Proof. intros s b z []; reflexivity. Qed.
Lemma mul_list_l : forall l b z, whole b z -> py_mul (VList l) b = let! l' := times z l in Ok (VList l').
Proof. intros l b z []; reflexivity. Qed.
Lemma mul_list_r : forall l b z, whole b z -> py_mul b (VList l) = let! l' := times z l in Ok (VList l').
Proof. intros l b z []; reflexivity. Qed.
Inductive kind : val -> val -> Prop :=
| kind_ints : forall a b x y, whole a x -> whole b y -> kind a b
| kind_floats : forall f g, kind (VFloat f) (VFloat g)
| kind_int_float : forall a x g, whole a x -> kind a (VFloat g)
| kind_float_int : forall f b y, whole b y -> kind (VFloat f) b
| kind_str_l : forall s b z, whole b z -> kind (VStr s) b
| kind_str_r : forall a s z, whole a z -> kind a (VStr s)
| kind_list_l : forall l b z, whole b z -> kind (VList l) b
| kind_list_r : forall a l z, whole a z -> kind a (VList l)
| kind_none : forall a b, (exists w, py_mul a b = Err (EType w)) -> (forall z, ~ whole a z) \/ (forall z, ~ whole b z) ->
    ~ is_vfloat a \/ ~ is_vfloat b ->
    (forall z, whole a z -> ~ is_vfloat b /\ ~ is_sequence b) -> (forall z, whole b z -> ~ is_vfloat a /\ ~ is_sequence a) -> kind a b.
Lemma kind_of : forall a b, kind a b.
Proof.
  assert (B : forall x, exists z, whole (VBool x) z) by (intros [ | ]; eexists; constructor).
  assert (W : forall z, whole (VInt z) z) by constructor.
  intros a b. destruct a as [ | x | x | x | x | x | x] eqn:Ea, b as [ | y | y | y | y | y | y] eqn:Eb; rewrite <- ?Ea, <- ?Eb;
    try (destruct (B x) as [zx Hx]); try (destruct (B y) as [zy Hy]);
    first [ subst; solve [eauto using kind]
          | apply kind_none; [subst; eexists; reflexivity
              | subst; first [left; intros z H; solve [inversion H] | right; intros z H; solve [inversion H]]
              | subst; first [left; intros [f H]; discriminate H | right; intros [f H]; discriminate H]
              | subst; intros z H; try solve [inversion H]; (split; [intros [f K]; discriminate K | cbn; tauto])
              | subst; intros z H; try solve [inversion H]; (split; [intros [f K]; discriminate K | cbn; tauto])]].
Qed.

Lemma whole_fun : forall v x y, whole v x -> whole v y -> x = y.
Proof. intros v x y A B. apply whole_iff in A, B. congruence. Qed.
Theorem mul_product : forall a b c, py_mul a b = Ok c -> product a b c.
Proof.
  intros a b c E. destruct (kind_of a b) as [a b x y A B | f g | a x g A | f b y B | s b z B | a s z A | l b z B | a l z A | a b [w K] _ _ _ _].
  - rewrite (mul_ints a b x y A B) in E. injection E as <-. constructor; auto.
  - injection E as <-. eapply product_float; [left; eexists; auto | constructor | constructor | apply fmul_product].
  - rewrite (mul_int_float a x g A) in E. destruct (float_of_Z x) as [f | ] eqn:F; [ | discriminate]. injection E as <-.
    eapply product_float; [right; eexists; auto | eapply whole_factor; eauto | constructor | apply fmul_product].
  - rewrite (mul_float_int f b y B) in E. destruct (float_of_Z y) as [g | ] eqn:F; [ | discriminate]. injection E as <-.
    eapply product_float; [left; eexists; auto | constructor | eapply whole_factor; eauto | apply fmul_product].
  - rewrite (mul_str_l s b z B), times_string in E. destruct (_ && _)%bool eqn:C; [ | discriminate]. injection E as <-. constructor; auto. apply countable_iff; auto.
  - rewrite (mul_str_r s a z A), times_string in E. destruct (_ && _)%bool eqn:C; [ | discriminate]. injection E as <-. constructor; auto. apply countable_iff; auto.
  - rewrite (mul_list_l l b z B), times_list in E. destruct (_ && _)%bool eqn:C; [ | discriminate]. injection E as <-. constructor; auto. apply countable_iff; auto.
  - rewrite (mul_list_r l a z A), times_list in E. destruct (_ && _)%bool eqn:C; [ | discriminate]. injection E as <-. constructor; auto. apply countable_iff; auto.
  - congruence.
Qed.
(** The result of the code, given any result that the specification allows *)
Lemma product_result : forall a b c, product a b c -> exists c', py_mul a b = Ok c' /\
  (c = c' \/ exists f g r r', c = VFloat r /\ c' = VFloat r' /\ factor a f /\ factor b g /\ float_product f g r /\ r' = fmul f g).
Proof.
  intros a b c H. destruct H as [a b x y A B | a b f g r V A B P | s b n B C | a s n A C | l b n B C | a l n A C].
  - rewrite (mul_ints a b x y A B). eauto.
  - assert (E : py_mul a b = Ok (VFloat (fmul f g))).
    { inversion A as [f' | a' x f' Wa Fa Ra]; subst.
      - inversion B as [g' | b' y g' Wb Fb Rb]; subst; auto. rewrite (mul_float_int f b y Wb), (factor_of b y g Wb B). auto.
      - inversion B as [g' | b' y g' Wb Fb Rb]; subst; [rewrite (mul_int_float a x g Wa), (factor_of a x f Wa A); auto | ].
        destruct V as [[h ->] | [h ->]]; [inversion Wa | inversion Wb]. }
    exists (VFloat (fmul f g)). split; auto. right. exists f, g, r, (fmul f g). auto 10.
  - apply countable_iff in C. rewrite (mul_str_l s b n B), times_string, C. eauto.
  - apply countable_iff in C. rewrite (mul_str_r s a n A), times_string, C. eauto.
  - apply countable_iff in C. rewrite (mul_list_l l b n B), times_list, C. eauto.
  - apply countable_iff in C. rewrite (mul_list_r l a n A), times_list, C. eauto.
Qed.
Definition real (v : val) : Prop := forall f, v = VFloat f -> is_float f.
Lemma factor_valid : forall v f, real v -> factor v f -> is_float f.
Proof. intros v f H F. destruct F as [f | v z f W F R]; [apply H; auto | apply R]. Qed.
Theorem mul_exact : forall a b c, real a -> real b -> (py_mul a b = Ok c <-> product a b c).
Proof.
  intros a b c Ra Rb. split; [apply mul_product | ]. intros H. destruct (product_result a b c H) as (c' & E & [-> | (f & g & r & r' & -> & -> & A & B & P & ->)]); auto.
  rewrite E. do 2 f_equal. symmetry. apply product_fmul; auto; [exact (factor_valid a f Ra A) | exact (factor_valid b g Rb B)].
Qed.
(** What comes next does not depend on which result it is. *)
Lemma product_alike : forall a b c c' t d, product a b c -> py_mul a b = Ok c' -> product c t d -> exists d', py_mul c' t = Ok d'.
Proof.
  intros a b c c' t d H E D. destruct (product_result a b c H) as (c2 & E2 & K). assert (c2 = c') by congruence. subst c2.
  destruct (product_result c t d D) as (d' & X & _). destruct K as [-> | (f & g & r & r' & -> & -> & _)]; eauto.
  destruct t as [ | [ | ] | x | x | x | x | x]; try discriminate X; cbn in X |- *; eauto.
  unfold py_mul in X |- *. cbn [as_num] in *. destruct (float_of_Z x); [cbn; eauto | discriminate].
Qed.
Theorem mul_refused : forall a b e, py_mul a b = Err e -> no_product a b e.
Proof.
  intros a b e E. split.
  { intros c H. destruct (product_result a b c H) as (c' & E' & _). congruence. }
  assert (T : forall v w z f, v = VFloat f -> (v = a /\ w = b \/ v = b /\ w = a) -> whole w z -> float_of_Z z = Err e -> too_big a b /\ e = EOverflow).
  { intros v w z f -> P W F. pose proof (float_of_Z_rounds z) as R. rewrite F in R. destruct R as [-> R]. split; auto. exists (VFloat f), w, z. split; auto. split; auto. left. split; [eexists; auto | auto]. }
  assert (C : forall v w z, is_sequence v -> (v = a /\ w = b \/ v = b /\ w = a) -> whole w z -> ((- 2 ^ 63 <=? z) && (z <? 2 ^ 63))%Z = false -> too_big a b).
  { intros v w z P Q W F. exists v, w, z. split; auto. split; auto. right. split; auto. intros K. apply countable_iff in K. congruence. }
  destruct (kind_of a b) as [a b x y A B | f g | a x g A | f b y B | s b z B | a s z A | l b z B | a l z A | a b [w K] N1 N2 N3 N4].
  - rewrite (mul_ints a b x y A B) in E. discriminate.
  - discriminate.
  - left. rewrite (mul_int_float a x g A) in E. destruct (float_of_Z x) as [f | ] eqn:F; [discriminate | ]. injection E as ->. eapply T; eauto.
  - left. rewrite (mul_float_int f b y B) in E. destruct (float_of_Z y) as [g | ] eqn:F; [discriminate | ]. injection E as ->. eapply T; eauto.
  - left. rewrite (mul_str_l s b z B), times_string in E. destruct (_ && _)%bool eqn:F; [discriminate | ]. injection E as <-. split; auto. apply (C (VStr s) b z); cbn; auto.
  - left. rewrite (mul_str_r s a z A), times_string in E. destruct (_ && _)%bool eqn:F; [discriminate | ]. injection E as <-. split; auto. apply (C (VStr s) a z); cbn; auto.
  - left. rewrite (mul_list_l l b z B), times_list in E. destruct (_ && _)%bool eqn:F; [discriminate | ]. injection E as <-. split; auto. apply (C (VList l) b z); cbn; auto.
  - left. rewrite (mul_list_r l a z A), times_list in E. destruct (_ && _)%bool eqn:F; [discriminate | ]. injection E as <-. split; auto. apply (C (VList l) a z); cbn; auto.
  - right. split; [ | exists w; congruence]. intros (v & v' & z & [[-> ->] | [-> ->]] & W & [[Q _] | [Q _]]).
    + destruct (N4 z W) as [X Y]; auto.
    + destruct (N4 z W) as [X Y]; auto.
    + destruct (N3 z W) as [X Y]; auto.
    + destruct (N3 z W) as [X Y]; auto.
Qed.
Theorem product_one : forall a b c c', real a -> real b -> product a b c -> product a b c' -> c = c'.
Proof. intros a b c c' Ra Rb H H'. apply mul_exact in H, H'; auto. congruence. Qed.
