(** Facts about the Python notions of PyBase: dictionaries, sets, strings, loops. *)
From Verif Require Import PyBase.
From Coq Require Import Permutation.
Open Scope string_scope.

Lemma Forall2_len : forall A B (P : A -> B -> Prop) l1 l2, Forall2 P l1 l2 -> length l1 = length l2.
Proof. intros A B P l1 l2 H. induction H; simpl; auto. Qed.

Lemma Forall2_impl : forall A B (P Q : A -> B -> Prop) l1 l2,
  (forall x y, P x y -> Q x y) -> Forall2 P l1 l2 -> Forall2 Q l1 l2.
Proof. intros A B P Q l1 l2 H H2. induction H2; constructor; auto. Qed.

(** ** res *)
Lemma bind_ok : forall A B (m : res A) (f : A -> res B) b,
  bind m f = Ok b <-> exists a, m = Ok a /\ f a = Ok b.
Proof.
  intros A B [a | e] f b; simpl; split.
  - eauto.
  - intros [a' [H1 H2]]. congruence.
  - discriminate.
  - intros [a' [H1 H2]]. discriminate.
Qed.

Lemma bind_err : forall A B (m : res A) (f : A -> res B) e,
  bind m f = Err e <-> m = Err e \/ exists a, m = Ok a /\ f a = Err e.
Proof.
  intros A B [a | e'] f e; simpl; split.
  - eauto.
  - intros [H | [a' [H1 H2]]]; congruence.
  - left; congruence.
  - intros [H | [a' [H1 H2]]]; congruence.
Qed.

Ltac inv_bind H :=
  let a := fresh "x" in let H1 := fresh "E" in
  apply bind_ok in H; destruct H as [a [H1 H]].

Lemma mapM_ok : forall A B (f : A -> res B) l r,
  mapM f l = Ok r <-> Forall2 (fun x y => f x = Ok y) l r.
Proof.
  intros A B f l. induction l as [ | x l IH]; intros r; simpl; split; intros H.
  - injection H as <-. constructor.
  - inversion H. reflexivity.
  - inv_bind H. inv_bind H. injection H as <-. constructor; auto. apply IH; auto.
  - inversion H; subst. rewrite H2. simpl.
    assert (E : mapM f l = Ok l') by (apply IH; auto). rewrite E. reflexivity.
Qed.

Lemma mapM_app : forall A B (f : A -> res B) l1 l2 r1 r2,
  mapM f l1 = Ok r1 -> mapM f l2 = Ok r2 -> mapM f (l1 ++ l2) = Ok (r1 ++ r2)%list.
Proof.
  intros A B f l1 l2 r1 r2 H1 H2. apply mapM_ok in H1. apply mapM_ok in H2.
  apply mapM_ok. apply Forall2_app; auto.
Qed.

Lemma mapM_all_ok : forall A B (f : A -> res B) (g : A -> B) l,
  (forall x, In x l -> f x = Ok (g x)) -> mapM f l = Ok (map g l).
Proof.
  intros A B f g l. induction l as [ | x l IH]; intros H; simpl; auto.
  rewrite H by (left; auto). simpl. rewrite IH; auto.
  intros; apply H; right; auto.
Qed.

Lemma mapM_map : forall A B C (f : B -> res C) (g : A -> B) l,
  mapM f (map g l) = mapM (fun x => f (g x)) l.
Proof. intros A B C f g l. induction l; simpl; auto. rewrite IHl. reflexivity. Qed.

Lemma mapM_ext : forall A B (f g : A -> res B) l,
  (forall x, In x l -> f x = g x) -> mapM f l = mapM g l.
Proof.
  intros A B f g l. induction l as [ | x l IH]; intros H; simpl; auto.
  rewrite H by (left; auto). rewrite IH; auto. intros; apply H; right; auto.
Qed.

Lemma mapM_length : forall A B (f : A -> res B) l r, mapM f l = Ok r -> length r = length l.
Proof.
  intros A B f l r H. apply mapM_ok in H. symmetry. eapply Forall2_len; eauto.
Qed.

Lemma foldM_app : forall S A (f : S -> A -> res S) l1 l2 s,
  foldM f s (l1 ++ l2) = bind (foldM f s l1) (fun s' => foldM f s' l2).
Proof.
  intros S A f l1. induction l1 as [ | x l1 IH]; intros l2 s; simpl; auto.
  destruct (f s x); simpl; auto.
Qed.

(** An invariant of a loop that raises nothing. *)
Lemma foldM_inv : forall S A (f : S -> A -> res S) (P : S -> Prop) l s s',
  P s -> (forall s x s', In x l -> P s -> f s x = Ok s' -> P s') ->
  foldM f s l = Ok s' -> P s'.
Proof.
  intros S A f P l. induction l as [ | x l IH]; intros s s' H0 Hf H; simpl in H.
  - injection H as <-. auto.
  - inv_bind H. eapply IH in H; eauto.
    + eapply Hf; eauto. left; auto.
    + intros. eapply Hf; eauto. right; auto.
Qed.

Lemma foldM_total : forall S A (f : S -> A -> res S) (P : S -> Prop) l s,
  P s -> (forall s x, In x l -> P s -> exists s', f s x = Ok s' /\ P s') ->
  exists s', foldM f s l = Ok s' /\ P s'.
Proof.
  intros S A f P l. induction l as [ | x l IH]; intros s H0 Hf; simpl.
  - eauto.
  - destruct (Hf s x) as [s1 [E1 P1]]; auto. { left; auto. }
    rewrite E1. simpl. apply IH; auto. intros; apply Hf; auto. right; auto.
Qed.

(** ** Strings *)
Lemma seqb_refl : forall s, String.eqb s s = true.
Proof. apply String.eqb_refl. Qed.
Lemma seqb_eq : forall a b, String.eqb a b = true <-> a = b.
Proof. apply String.eqb_eq. Qed.
Lemma seqb_neq : forall a b, String.eqb a b = false <-> a <> b.
Proof. apply String.eqb_neq. Qed.
Lemma seqb_sym : forall a b, String.eqb a b = String.eqb b a.
Proof. apply String.eqb_sym. Qed.

Ltac eqb_cases a b :=
  let E := fresh "E" in
  destruct (String.eqb a b) eqn:E;
  [apply String.eqb_eq in E | apply String.eqb_neq in E].

Lemma smem_in : forall x l, smem x l = true <-> In x l.
Proof.
  intros x l. unfold smem. rewrite existsb_exists. split.
  - intros [y [H1 H2]]. apply seqb_eq in H2. subst. auto.
  - intros H. exists x. split; auto. apply seqb_refl.
Qed.
Lemma smem_nin : forall x l, smem x l = false <-> ~ In x l.
Proof.
  intros x l. rewrite <- smem_in. destruct (smem x l); split; congruence.
Qed.
Lemma smem_cons : forall x y l, smem x (y :: l) = (String.eqb x y || smem x l)%bool.
Proof. reflexivity. Qed.
Lemma smem_app : forall x l1 l2, smem x (l1 ++ l2) = (smem x l1 || smem x l2)%bool.
Proof. intros. unfold smem. apply existsb_app. Qed.

Lemma smem_ext : forall l1 l2, (forall x, In x l1 <-> In x l2) -> forall x, smem x l1 = smem x l2.
Proof.
  intros l1 l2 H x. destruct (smem x l1) eqn:E; symmetry.
  - apply smem_in. apply H. apply smem_in. auto.
  - apply smem_nin. rewrite <- H. apply smem_nin. auto.
Qed.

Lemma chars_app : forall a b, chars (a ++ b) = (chars a ++ chars b)%list.
Proof. induction a; intros b; simpl; auto. unfold chars in *. simpl. rewrite IHa. auto. Qed.
Lemma chars_unchars : forall l, chars (unchars l) = l.
Proof. apply list_ascii_of_string_of_list_ascii. Qed.
Lemma unchars_chars : forall s, unchars (chars s) = s.
Proof. apply string_of_list_ascii_of_string. Qed.
Lemma chars_inj : forall a b, chars a = chars b -> a = b.
Proof. intros a b H. rewrite <- (unchars_chars a), H. apply unchars_chars. Qed.
Lemma chars_length : forall s, length (chars s) = String.length s.
Proof. induction s; simpl; auto. Qed.
Lemma unchars_app : forall a b, unchars (a ++ b) = (unchars a ++ unchars b)%string.
Proof. intros. apply chars_inj. rewrite chars_app, !chars_unchars. auto. Qed.

(** ** Dictionaries *)
Section Dict.
  Context {A : Type}.
  Implicit Types (d : dict A) (k : string) (v : A).

  Lemma dget_none : forall k d, dget k d = None <-> ~ In k (dkeys d).
  Proof.
    intros k d. induction d as [ | [k' v'] d IH]; simpl.
    - split; auto.
    - eqb_cases k k'.
      + subst. split; try discriminate. intros H; exfalso; apply H; auto.
      + rewrite IH. intuition congruence.
  Qed.
  Lemma dget_some_in : forall k d v, dget k d = Some v -> In (k, v) d.
  Proof.
    intros k d v. induction d as [ | [k' v'] d IH]; simpl; try discriminate.
    eqb_cases k k'; intros H; [left; congruence | right; auto].
  Qed.
  Lemma dget_in_keys : forall k d v, dget k d = Some v -> In k (dkeys d).
  Proof. intros k d v H. apply dget_some_in in H. apply (in_map fst) in H. auto. Qed.
  Lemma in_keys_dget : forall k d, In k (dkeys d) -> exists v, dget k d = Some v.
  Proof.
    intros k d H. destruct (dget k d) eqn:E; eauto. apply dget_none in E. contradiction.
  Qed.
  Lemma in_dget : forall k d v, NoDup (dkeys d) -> In (k, v) d -> dget k d = Some v.
  Proof.
    intros k d v. induction d as [ | [k' v'] d IH]; simpl; intros Hn H; [contradiction | ].
    inversion Hn; subst. destruct H as [H | H].
    - injection H as -> ->. rewrite seqb_refl. auto.
    - eqb_cases k k'; auto. subst. exfalso. apply H2. apply (in_map fst) in H. auto.
  Qed.

  Lemma dmem_in : forall k d, dmem k d = true <-> In k (dkeys d).
  Proof.
    intros k d. unfold dmem. destruct (dget k d) eqn:E.
    - split; auto. intros _. eapply dget_in_keys; eauto.
    - apply dget_none in E. split; [discriminate | contradiction].
  Qed.
  Lemma dmem_nin : forall k d, dmem k d = false <-> ~ In k (dkeys d).
  Proof. intros k d. rewrite <- dmem_in. destruct (dmem k d); split; congruence. Qed.
  Lemma dmem_smem : forall k d, dmem k d = smem k (dkeys d).
  Proof.
    intros k d. destruct (smem k (dkeys d)) eqn:E.
    - apply dmem_in. apply smem_in; auto.
    - apply dmem_nin. apply smem_nin; auto.
  Qed.

  Lemma dget_dset : forall k k' v d, dget k (dset k' v d) = if String.eqb k k' then Some v else dget k d.
  Proof.
    intros k k' v d. induction d as [ | [k2 v2] d IH]; simpl.
    - reflexivity.
    - eqb_cases k' k2; simpl.
      + subst. eqb_cases k k2; auto.
      + eqb_cases k k2; subst.
        * eqb_cases k2 k'; congruence.
        * rewrite IH. auto.
  Qed.
  Lemma dget_dset_same : forall k v d, dget k (dset k v d) = Some v.
  Proof. intros. rewrite dget_dset, seqb_refl. auto. Qed.
  Lemma dget_dset_other : forall k k' v d, k <> k' -> dget k (dset k' v d) = dget k d.
  Proof. intros. rewrite dget_dset. apply seqb_neq in H. rewrite H. auto. Qed.

  Lemma dkeys_dset : forall k v d,
    dkeys (dset k v d) = if smem k (dkeys d) then dkeys d else (dkeys d ++ [k])%list.
  Proof.
    intros k v d. induction d as [ | [k' v'] d IH]; [reflexivity | ].
    change (smem k (dkeys ((k', v') :: d))) with (String.eqb k k' || smem k (dkeys d))%bool.
    simpl dset. eqb_cases k k'; [reflexivity | ]. simpl orb.
    change (dkeys ((k', v') :: dset k v d)) with (k' :: dkeys (dset k v d)).
    rewrite IH. destruct (smem k (dkeys d)); reflexivity.
  Qed.
  Lemma in_dkeys_dset : forall k k' v d, In k (dkeys (dset k' v d)) <-> k = k' \/ In k (dkeys d).
  Proof.
    intros. rewrite dkeys_dset. destruct (smem k' (dkeys d)) eqn:E.
    - apply smem_in in E. intuition congruence.
    - rewrite in_app_iff. simpl. intuition.
  Qed.
  Lemma NoDup_dset : forall k v d, NoDup (dkeys d) -> NoDup (dkeys (dset k v d)).
  Proof.
    intros k v d H. rewrite dkeys_dset. destruct (smem k (dkeys d)) eqn:E; auto.
    apply smem_nin in E. apply (Permutation_NoDup (l := k :: dkeys d)).
    - apply Permutation_cons_append.
    - constructor; auto.
  Qed.
  Lemma dset_new : forall k v d, ~ In k (dkeys d) -> dset k v d = (d ++ [(k, v)])%list.
  Proof.
    intros k v d. induction d as [ | [k' v'] d IH]; simpl; intros H; auto.
    eqb_cases k k'.
    - exfalso. apply H. auto.
    - rewrite IH; auto.
  Qed.
  Lemma length_dset_old : forall k v d, In k (dkeys d) -> length (dset k v d) = length d.
  Proof.
    intros k v d. induction d as [ | [k' v'] d IH]; simpl; intros H; [contradiction | ].
    eqb_cases k k'; simpl; auto. rewrite IH; auto. destruct H; congruence.
  Qed.

  Lemma dget_ddel : forall k k' d, dget k (ddel k' d) = if String.eqb k k' then None else dget k d.
  Proof.
    intros k k' d. unfold ddel. induction d as [ | [k2 v2] d IH]; simpl.
    - destruct (String.eqb k k'); auto.
    - eqb_cases k' k2; simpl.
      + subst. rewrite IH. eqb_cases k k2; auto.
      + eqb_cases k k2.
        * subst. eqb_cases k2 k'; congruence.
        * auto.
  Qed.
  Lemma dkeys_filter : forall (f : string -> bool) d,
    dkeys (filter (fun kv => f (fst kv)) d) = filter f (dkeys d).
  Proof.
    intros f d. induction d as [ | [k v] d IH]; simpl; auto. destruct (f k); simpl; rewrite IH; auto.
  Qed.
  Lemma dkeys_ddel : forall k d, dkeys (ddel k d) = filter (fun x => negb (String.eqb k x)) (dkeys d).
  Proof. intros. unfold ddel. apply dkeys_filter with (f := fun x => negb (String.eqb k x)). Qed.
  Lemma NoDup_ddel : forall k d, NoDup (dkeys d) -> NoDup (dkeys (ddel k d)).
  Proof. intros. rewrite dkeys_ddel. apply NoDup_filter. auto. Qed.
  Lemma ddel_absent : forall k d, ~ In k (dkeys d) -> ddel k d = d.
  Proof.
    intros k d. unfold ddel. induction d as [ | [k' v'] d IH]; simpl; intros H; auto.
    eqb_cases k k'; simpl.
    - exfalso; apply H; auto.
    - rewrite IH; auto.
  Qed.
  Lemma in_dkeys_ddel : forall k k' d, In k (dkeys (ddel k' d)) <-> k <> k' /\ In k (dkeys d).
  Proof.
    intros. rewrite dkeys_ddel, filter_In. rewrite negb_true_iff, seqb_neq. intuition congruence.
  Qed.

  Lemma dget_filter_keys : forall (f : string -> bool) k d,
    dget k (filter (fun kv => f (fst kv)) d) = if f k then dget k d else None.
  Proof.
    intros f k d. induction d as [ | [k' v'] d IH]; simpl.
    - destruct (f k); auto.
    - destruct (f k') eqn:E; simpl; eqb_cases k k'; subst; rewrite ?E; auto.
      rewrite IH, E. auto.
  Qed.

  Lemma dict_ext : forall d1 d2,
    dkeys d1 = dkeys d2 -> NoDup (dkeys d1) -> (forall k, dget k d1 = dget k d2) -> d1 = d2.
  Proof.
    induction d1 as [ | [k v] d1 IH]; intros [ | [k' v'] d2] Hk Hn Hg; simpl in *; try discriminate; auto.
    injection Hk as -> Hk. inversion Hn; subst.
    pose proof (Hg k') as H. rewrite seqb_refl in H. injection H as ->.
    f_equal. apply IH; auto. intros k. specialize (Hg k). eqb_cases k k'; auto.
    subst. assert (E1 : dget k' d1 = None) by (apply dget_none; auto).
    assert (E2 : dget k' d2 = None) by (apply dget_none; rewrite <- Hk; auto).
    congruence.
  Qed.
End Dict.

Lemma dget_dmap : forall A B (f : A -> B) k (d : dict A),
  dget k (dmap f d) = match dget k d with Some v => Some (f v) | None => None end.
Proof.
  intros A B f k d. induction d as [ | [k' v'] d IH]; simpl; auto. destruct (String.eqb k k'); auto.
Qed.
Lemma dkeys_dmap : forall A B (f : A -> B) (d : dict A), dkeys (dmap f d) = dkeys d.
Proof. intros. unfold dkeys, dmap. rewrite map_map. apply map_ext. auto. Qed.
Lemma dmap_dmap : forall A B C (f : B -> C) (g : A -> B) d, dmap f (dmap g d) = dmap (fun x => f (g x)) d.
Proof. intros. unfold dmap. rewrite map_map. auto. Qed.
Lemma dmap_ext : forall A B (f g : A -> B) (d : dict A),
  (forall k v, In (k, v) d -> f v = g v) -> dmap f d = dmap g d.
Proof.
  intros A B f g d H. unfold dmap. apply map_ext_in. intros [k v] Hi. simpl. erewrite H; eauto.
Qed.
Lemma dmap_id : forall A (d : dict A), dmap (fun x => x) d = d.
Proof. intros. unfold dmap. rewrite <- (map_id d) at 2. apply map_ext. intros [k v]. auto. Qed.
Lemma dmap_id_ext : forall A (f : A -> A) (d : dict A),
  (forall k v, In (k, v) d -> f v = v) -> dmap f d = d.
Proof. intros A f d H. rewrite <- (dmap_id A d) at 2. apply dmap_ext. auto. Qed.
Lemma dvals_dmap : forall A B (f : A -> B) (d : dict A), dvals (dmap f d) = map f (dvals d).
Proof. intros. unfold dvals, dmap. rewrite !map_map. auto. Qed.

Lemma dmapM_ok : forall A B (f : A -> res B) d r,
  dmapM f d = Ok r <-> Forall2 (fun x y => fst x = fst y /\ f (snd x) = Ok (snd y)) d r.
Proof.
  intros A B f d r. unfold dmapM. split; intros H.
  - apply mapM_ok in H. eapply Forall2_impl; [ | exact H]. intros [k v] [k' v'] H1. simpl in *.
    inv_bind H1. injection H1 as <- <-. auto.
  - apply mapM_ok. eapply Forall2_impl; [ | exact H]. intros [k v] [k' v'] [H1 H2]. simpl in *. subst.
    rewrite H2. auto.
Qed.
Lemma dmapM_keys : forall A B (f : A -> res B) d r, dmapM f d = Ok r -> dkeys r = dkeys d.
Proof.
  intros A B f d r H. apply dmapM_ok in H. induction H; simpl; auto.
  destruct H as [H _]. unfold dkeys in *. simpl. congruence.
Qed.
Lemma dmapM_all_ok : forall A B (f : A -> res B) (g : A -> B) d,
  (forall k v, In (k, v) d -> f v = Ok (g v)) -> dmapM f d = Ok (dmap g d).
Proof.
  intros A B f g d H. unfold dmapM, dmap. apply mapM_all_ok. intros [k v] Hi. simpl.
  erewrite H; eauto.
Qed.

(** ** Sets *)
Lemma in_set_of : forall x l, In x (set_of l) <-> In x l.
Proof. intros. unfold set_of. apply nodup_In. Qed.
Lemma NoDup_set_of : forall l, NoDup (set_of l).
Proof. intros. apply NoDup_nodup. Qed.
Lemma in_set_diff : forall x a b, In x (set_diff a b) <-> In x a /\ ~ In x b.
Proof.
  intros. unfold set_diff. rewrite filter_In, negb_true_iff, smem_nin. tauto.
Qed.
Lemma in_set_union : forall x a b, In x (set_union a b) <-> In x a \/ In x b.
Proof. intros. unfold set_union. rewrite in_set_of, in_app_iff. tauto. Qed.
Lemma NoDup_set_union : forall a b, NoDup (set_union a b).
Proof. intros. apply NoDup_set_of. Qed.
Lemma NoDup_set_diff : forall a b, NoDup a -> NoDup (set_diff a b).
Proof. intros. apply NoDup_filter. auto. Qed.

(** ** In-place loops *)
Lemma mapM_inplace_ok : forall A (f : A -> A * res unit) l l',
  mapM_inplace f l = (l', Ok tt) <-> Forall2 (fun x y => f x = (y, Ok tt)) l l'.
Proof.
  intros A f l. induction l as [ | x l IH]; intros l'; simpl; split; intros H.
  - injection H as <-. constructor.
  - inversion H; auto.
  - destruct (f x) as [x' [u | e]] eqn:E; try discriminate.
    destruct (mapM_inplace f l) as [l2 r2] eqn:E2. injection H as <- ->.
    destruct u. constructor; auto. apply IH; auto.
  - inversion H; subst. rewrite H2. apply IH in H4. rewrite H4. auto.
Qed.
Lemma mapM_inplace_length : forall A (f : A -> A * res unit) l,
  length (fst (mapM_inplace f l)) = length l.
Proof.
  intros A f l. induction l as [ | x l IH]; simpl; auto.
  destruct (f x) as [x' [u | e]]; simpl; auto.
  destruct (mapM_inplace f l) as [l2 r2]. simpl in *. auto.
Qed.
Lemma mapM_inplace_unit : forall A (f : A -> A * res unit) l l' u,
  mapM_inplace f l = (l', Ok u) -> mapM_inplace f l = (l', Ok tt).
Proof. intros. destruct u. auto. Qed.

(** ** Lists *)
Lemma filter_all : forall A (f : A -> bool) l, (forall x, In x l -> f x = true) -> filter f l = l.
Proof.
  intros A f l. induction l as [ | x l IH]; intros H; simpl; auto.
  rewrite H by (left; auto). rewrite IH; auto. intros; apply H; right; auto.
Qed.
Lemma filter_none : forall A (f : A -> bool) l, (forall x, In x l -> f x = false) -> filter f l = [].
Proof.
  intros A f l. induction l as [ | x l IH]; intros H; simpl; auto.
  rewrite H by (left; auto). apply IH. intros; apply H; right; auto.
Qed.
Lemma filter_filter : forall A (f g : A -> bool) l,
  filter f (filter g l) = filter (fun x => (g x && f x)%bool) l.
Proof.
  intros A f g l. induction l as [ | x l IH]; simpl; auto.
  destruct (g x); simpl; [destruct (f x); rewrite IH; auto | auto].
Qed.
Lemma filter_comm : forall A (f g : A -> bool) l, filter f (filter g l) = filter g (filter f l).
Proof. intros. rewrite !filter_filter. apply filter_ext. intros. apply andb_comm. Qed.
Lemma filter_map_comm : forall A B (f : B -> bool) (g : A -> B) l,
  filter f (map g l) = map g (filter (fun x => f (g x)) l).
Proof.
  intros A B f g l. induction l as [ | x l IH]; simpl; auto. destruct (f (g x)); simpl; rewrite IH; auto.
Qed.
Lemma NoDup_app_intro : forall A (l1 l2 : list A),
  NoDup l1 -> NoDup l2 -> (forall x, In x l1 -> In x l2 -> False) -> NoDup (l1 ++ l2).
Proof.
  intros A l1 l2 H1 H2 H. induction l1 as [ | x l1 IH]; simpl; auto.
  inversion H1; subst. constructor.
  - rewrite in_app_iff. intros [Hi | Hi]; auto. apply (H x); simpl; auto.
  - apply IH; auto. intros y Hy1 Hy2. apply (H y); simpl; auto.
Qed.
Lemma NoDup_app_inv : forall A (l1 l2 : list A),
  NoDup (l1 ++ l2) -> NoDup l1 /\ NoDup l2 /\ (forall x, In x l1 -> In x l2 -> False).
Proof.
  intros A l1 l2. induction l1 as [ | x l1 IH]; simpl; intros H.
  - repeat split; auto. constructor.
  - inversion H; subst. apply IH in H3. destruct H3 as [Ha [Hb Hc]]. repeat split; auto.
    + constructor; auto. intros Hi. apply H2. apply in_app_iff; auto.
    + intros y [-> | Hy] Hy2; eauto. apply H2. apply in_app_iff; auto.
Qed.
Lemma Forall2_map_l : forall A B C (P : B -> C -> Prop) (f : A -> B) l1 l2,
  Forall2 P (map f l1) l2 <-> Forall2 (fun x y => P (f x) y) l1 l2.
Proof.
  intros A B C P f l1. induction l1 as [ | x l1 IH]; intros l2; simpl; split; intros H;
    inversion H; subst; constructor; auto; apply IH; auto.
Qed.
Lemma Forall2_eq_map : forall A B (f : A -> B) l1 l2,
  Forall2 (fun x y => y = f x) l1 l2 <-> l2 = map f l1.
Proof.
  intros A B f l1. induction l1 as [ | x l1 IH]; intros l2; simpl; split; intros H.
  - inversion H; auto.
  - subst; constructor.
  - inversion H; subst. f_equal. apply IH; auto.
  - subst. constructor; auto. apply IH; auto.
Qed.
