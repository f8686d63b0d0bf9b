(** When the traversals raise (C149). *)
From Verif Require Import PyBase PyNum Json Version Classes Traverse SpecTraverse TraverseFacts SpecForeign.
From Verif Require PyFacts.
Open Scope string_scope.

Definition fate {A} (F : Prop) (r : res A) : Prop :=
  match r with Ok _ => ~ F | Err e => F /\ exists m, e = EType m end.
Lemma fate_ok : forall A F (r : res A), fate F r -> (F -> exists m, r = Err (EType m)) /\ (~ F -> exists x, r = Ok x).
Proof.
  intros A F [x | e] H; cbn [fate] in H; split; intros N; try contradiction; eauto.
  - destruct H as [_ [m ->]]. eauto.
  - destruct H; contradiction.
Qed.
Lemma fate_iff : forall A (F G : Prop) (r : res A), (F <-> G) -> fate F r -> fate G r.
Proof. intros A F G [x | e] H K; cbn [fate] in *; tauto. Qed.
Lemma fate_bind : forall A B (F G : Prop) (r : res A) (k : A -> res B), fate F r -> (forall x, r = Ok x -> fate G (k x)) -> fate (F \/ G) (bind r k).
Proof.
  intros A B F G [x | e] k H K; cbn [fate bind] in *; [ | tauto]. specialize (K x eq_refl). destruct (k x); cbn [fate] in *; tauto.
Qed.
Lemma fate_last : forall A B (F : Prop) (r : res A) (f : A -> B), fate F r -> fate F (let! x := r in Ok (f x)).
Proof. intros A B F [x | e] f H; exact H. Qed.
Lemma fate_fine : forall A (x : A), fate False (Ok x).
Proof. intros A x []. Qed.

Lemma foreign_val : forall v, ~ foreign (of_val v).
Proof.
  induction v as [ | b | z | f | s | l IH | d IH] using val_ind'; intros H; cbn [of_val] in H; inversion H; subst.
  - apply in_map_iff in H1 as (y & <- & Hy). rewrite Forall_forall in IH. exact (IH _ Hy H2).
  - apply in_map_iff in H1 as ([k' y] & [= <- <-] & Hy). rewrite Forall_forall in IH. exact (IH _ Hy H2).
Qed.

(** Unsupported objects are equal to nothing. *)
Lemma foreign_peq : forall p, foreign p -> forall w, peq p w = false.
Proof.
  induction p as [ | b | z | f | s | l IH | d IH | c d IH | ] using pyobj_ind'; intros H w; try (inversion H; fail); [ | | reflexivity | reflexivity].
  - destruct w as [ | | | | | y | ]; try reflexivity. inversion H; subst. clear H. cbn [peq]. revert y H1. induction IH as [ | a m Ha _ IHm]; intros y HI; [contradiction | ].
    destruct y as [ | b y]; [reflexivity | ]. destruct HI as [-> | HI]; [rewrite (Ha H2); reflexivity | ]. rewrite (IHm y HI). apply Bool.andb_false_r.
  - destruct w as [ | | | | | | y]; try reflexivity. inversion H; subst. clear H. cbn [peq]. apply Bool.andb_false_intro2. induction IH as [ | [k' a] m Ha _ IHm]; [contradiction | ].
    destruct H1 as [[= -> ->] | HI]; [ | rewrite (IHm HI); apply Bool.andb_false_r]. cbn [snd] in Ha. destruct (dget k y); [rewrite (Ha H2) | ]; reflexivity.
Qed.
Lemma foreign_written : forall defs k p, foreign p -> written defs k p = true.
Proof. intros defs k p H. pose proof (foreign_peq p H) as Q. destruct p; cbn [written]; try (rewrite Q; reflexivity). inversion H. Qed.

Lemma list_cons : forall x l, foreign (PList (x :: l)) <-> foreign x \/ foreign (PList l).
Proof.
  intros x l. split.
  - intros H. inversion H; subst. match goal with K : In _ (_ :: _) |- _ => destruct K as [<- | K]; [left; assumption | right; econstructor; eauto] end.
  - intros [H | H]; [econstructor; [left; reflexivity | exact H] | inversion H; subst; econstructor; [right; eassumption | assumption]].
Qed.
Lemma dict_cons : forall k x l, foreign (PDict ((k, x) :: l)) <-> foreign x \/ foreign (PDict l).
Proof.
  intros k x l. split.
  - intros H. inversion H; subst. match goal with K : In _ (_ :: _) |- _ => destruct K as [[= <- <-] | K]; [left; assumption | right; econstructor; eauto] end.
  - intros [H | H]; [econstructor; [left; reflexivity | exact H] | inversion H; subst; econstructor; [right; eassumption | assumption]].
Qed.
Lemma elem_cons : forall c k x l, foreign (PElem c ((k, x) :: l)) <-> foreign x \/ foreign (PElem c l).
Proof.
  intros c k x l. split.
  - intros H. inversion H; subst. match goal with K : In _ (_ :: _) |- _ => destruct K as [[= <- <-] | K]; [left; assumption | right; econstructor; eauto] end.
  - intros [H | H]; [econstructor; [left; reflexivity | exact H] | inversion H; subst; econstructor; [right; eassumption | assumption]].
Qed.
Lemma kept_list_cons : forall ver x l, foreign_kept ver (PList (x :: l)) <-> foreign_kept ver x \/ foreign_kept ver (PList l).
Proof.
  intros ver x l. split.
  - intros H. inversion H; subst. match goal with K : In _ (_ :: _) |- _ => destruct K as [<- | K]; [left; assumption | right; econstructor; eauto] end.
  - intros [H | H]; [econstructor; [left; reflexivity | exact H] | inversion H; subst; econstructor; [right; eassumption | assumption]].
Qed.
Lemma kept_dict_cons : forall ver k x l, foreign_kept ver (PDict ((k, x) :: l)) <-> foreign_kept ver x \/ foreign_kept ver (PDict l).
Proof.
  intros ver k x l. split.
  - intros H. inversion H; subst. match goal with K : In _ (_ :: _) |- _ => destruct K as [[= <- <-] | K]; [left; assumption | right; econstructor; eauto] end.
  - intros [H | H]; [econstructor; [left; reflexivity | exact H] | inversion H; subst; econstructor; [right; eassumption | assumption]].
Qed.
Lemma kept_elem_cons : forall ver c k x l, foreign_kept ver (PElem c ((k, x) :: l)) <-> (~ removed ver c k /\ foreign_kept ver x) \/ foreign_kept ver (PElem c l).
Proof.
  intros ver c k x l. split.
  - intros H. inversion H; subst. match goal with K : In _ (_ :: _) |- _ => destruct K as [[= <- <-] | K]; [left; auto | right; econstructor; eauto] end.
  - intros [[N H] | H]; [econstructor; [left; reflexivity | exact N | exact H] | inversion H; subst; econstructor; [right; eassumption | assumption | assumption]].
Qed.

Lemma defaults_fate : forall ver p, fate (foreign p) (set_default_values ver p).
Proof.
  intros ver. induction p as [ | b | z | f | s | l IH | d IH | c d IH | ] using pyobj_ind'; try (cbn [set_default_values fate]; intros H; inversion H; fail); cbn [set_default_values].
  - apply fate_last. induction IH as [ | x m Hx _ IHm]; [intros H; inversion H; contradiction | ].
    apply (fate_iff _ _ _ _ (iff_sym (list_cons x m))). apply fate_bind; [exact Hx | intros y _; apply fate_last; exact IHm].
  - apply fate_last. induction IH as [ | [k x] m Hx _ IHm]; [intros H; inversion H; contradiction | ].
    apply (fate_iff _ _ _ _ (iff_sym (dict_cons k x m))). apply fate_bind; [exact Hx | intros y _; apply fate_last; exact IHm].
  - apply fate_last. induction IH as [ | [k x] m Hx _ IHm]; [intros H; inversion H; contradiction | ].
    apply (fate_iff _ _ _ _ (iff_sym (elem_cons c k x m))). apply fate_bind; [ | intros y _; apply fate_last; exact IHm].
    cbn [snd] in Hx. destruct x; try exact Hx. destruct (dget k (default_values c ver)); intros H; inversion H.
  - split; [constructor | eexists; reflexivity].
Qed.
Lemma json_fate : forall ver p, fate (foreign p) (to_json ver p).
Proof.
  intros ver. induction p as [ | b | z | f | s | l IH | d IH | c d IH | ] using pyobj_ind'; try (cbn [to_json fate]; intros H; inversion H; fail); cbn [to_json].
  - apply fate_last. induction IH as [ | x m Hx _ IHm]; [intros H; inversion H; contradiction | ].
    apply (fate_iff _ _ _ _ (iff_sym (list_cons x m))). apply fate_bind; [exact Hx | intros y _; apply fate_last; exact IHm].
  - apply fate_last. induction IH as [ | [k x] m Hx _ IHm]; [intros H; inversion H; contradiction | ].
    apply (fate_iff _ _ _ _ (iff_sym (dict_cons k x m))). apply fate_bind; [exact Hx | intros y _; apply fate_last; exact IHm].
  - apply fate_last. induction IH as [ | [k x] m Hx _ IHm]; [intros H; inversion H; contradiction | ].
    apply (fate_iff _ _ _ _ (iff_sym (elem_cons c k x m))). destruct (written (default_values c ver) k x) eqn:W.
    + apply fate_bind; [exact Hx | intros y _; apply fate_last; exact IHm].
    + eapply fate_iff; [ | exact IHm]. split; [auto | intros [H | H]; [ | exact H]]. rewrite (foreign_written _ _ _ H) in W. discriminate W.
  - split; [constructor | eexists; reflexivity].
Qed.
Lemma removed_iff : forall ver c k, (ver_lt ver SPINE_3_8 && match unsupported_old c with Some l => smem k l | None => false end)%bool = true <-> removed ver c k.
Proof.
  intros ver c k. unfold removed. rewrite Bool.andb_true_iff. assert (ver_lt ver SPINE_3_8 = true <-> (v_major ver < 3 /\ v_minor ver < 8 /\ v_patch ver < 0)%Z) as <-.
  { unfold ver_lt. rewrite !Bool.andb_true_iff, !Z.ltb_lt. cbn [v_major v_minor v_patch SPINE_3_8]. tauto. }
  assert ((exists l, unsupported_old c = Some l /\ In k l) <-> In c [CBoneTS; CBoneRS; CIkTimeline; CSlotKeyframe] /\ In k ["c2"; "c3"; "c4"]) as <-.
  - split.
    + intros (l & H & K). destruct c; cbn [unsupported_old] in H; try discriminate H; injection H as <-; split; auto; cbn [In]; tauto.
    + intros [H K]. exists ["c2"; "c3"; "c4"]. split; [ | exact K]. cbn [In] in H. decompose [or] H; subst; try reflexivity; contradiction.
  - destruct (unsupported_old c) as [l | ].
    + rewrite PyFacts.smem_in. split; [intros [A B]; eauto | intros (A & l' & [= <-] & B); auto].
    + split; [intros [_ H]; discriminate H | intros (_ & l & H & _); discriminate H].
Qed.
Lemma clean_fate : forall ver p, fate (foreign_kept ver p) (clean_unsupported_attributes ver p).
Proof.
  intros ver. induction p as [ | b | z | f | s | l IH | d IH | c d IH | ] using pyobj_ind'; try (cbn [clean_unsupported_attributes fate]; intros H; inversion H; fail); cbn [clean_unsupported_attributes].
  - apply fate_last. induction IH as [ | x m Hx _ IHm]; [intros H; inversion H; contradiction | ].
    apply (fate_iff _ _ _ _ (iff_sym (kept_list_cons ver x m))). apply fate_bind; [exact Hx | intros y _; apply fate_last; exact IHm].
  - apply fate_last. induction IH as [ | [k x] m Hx _ IHm]; [intros H; inversion H; contradiction | ].
    apply (fate_iff _ _ _ _ (iff_sym (kept_dict_cons ver k x m))). apply fate_bind; [exact Hx | intros y _; apply fate_last; exact IHm].
  - apply fate_last. induction IH as [ | [k x] m Hx _ IHm]; [intros H; inversion H; contradiction | ].
    apply (fate_iff _ _ _ _ (iff_sym (kept_elem_cons ver c k x m))). apply fate_bind; [ | intros y _; apply fate_last; exact IHm].
    pose proof (removed_iff ver c k) as R. destruct (ver_lt ver SPINE_3_8 && _)%bool.
    + intros [N _]. apply N, R. reflexivity.
    + eapply fate_iff; [ | exact Hx]. split; [intros K; split; [intros Q; apply R in Q; discriminate Q | exact K] | intros [_ K]; exact K].
  - split; [constructor | eexists; reflexivity].
Qed.

Theorem traversals_raise : forall ver p, foreign p -> (exists m, set_default_values ver p = Err (EType m)) /\ (exists m, to_json ver p = Err (EType m)).
Proof. intros ver p H. split; [exact (proj1 (fate_ok _ _ _ (defaults_fate ver p)) H) | exact (proj1 (fate_ok _ _ _ (json_fate ver p)) H)]. Qed.
Theorem traversals_work : forall ver p, ~ foreign p -> (exists q, set_default_values ver p = Ok q) /\ (exists v, to_json ver p = Ok v).
Proof. intros ver p H. split; [exact (proj2 (fate_ok _ _ _ (defaults_fate ver p)) H) | exact (proj2 (fate_ok _ _ _ (json_fate ver p)) H)]. Qed.
Theorem cleaning_raises : forall ver p, (foreign_kept ver p -> exists m, clean_unsupported_attributes ver p = Err (EType m)) /\
  (~ foreign_kept ver p -> exists q, clean_unsupported_attributes ver p = Ok q).
Proof. intros ver p. exact (fate_ok _ _ _ (clean_fate ver p)). Qed.
Lemma foreign_all : forall ver p, (0 <= v_patch ver)%Z -> foreign p -> foreign_kept ver p.
Proof.
  intros ver p P H. induction H; econstructor; eauto. intros ((_ & _ & K) & _). exact (Zlt_not_le _ _ K P).
Qed.
Theorem cleaning_real : forall ver p, (0 <= v_patch ver)%Z -> foreign p -> exists m, clean_unsupported_attributes ver p = Err (EType m).
Proof. intros ver p P H. apply cleaning_raises, foreign_all; assumption. Qed.
