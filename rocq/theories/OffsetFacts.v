(** Proofs for C108. *)
From Coq Require Import Sorted.
From Verif Require Import PyBase PyFacts Json Classes SpineGraph DrawOrder SpecDraw SpecOffsets DrawFacts.
Open Scope string_scope.

(** ** list.insert *)
Lemma app_inj_len : forall A (a b a' b' : list A), (a ++ b)%list = (a' ++ b')%list -> length a = length a' -> a = a' /\ b = b'.
Proof.
  intros A a. induction a as [ | x a IH]; intros b [ | x' a'] b' E L; try discriminate; auto.
  injection E as <- E. apply IH in E as [-> ->]; auto.
Qed.
Lemma py_insert_inserted : forall i x l, inserted i x l (py_insert i x l).
Proof.
  intros i x l. unfold py_insert. cbv zeta. set (j := if Z.ltb i 0 then _ else _).
  exists (firstn (Z.to_nat j) l), (skipn (Z.to_nat j) l). rewrite firstn_skipn. repeat split; auto.
  assert (Hj : (0 <= j <= Z.of_nat (length l))%Z) by (unfold j; destruct (Z.ltb_spec i 0); lia).
  rewrite firstn_length_le by lia. unfold place, j. destruct (Z.ltb_spec i 0); [right | left]; lia.
Qed.
Lemma place_unique : forall i n k k', place i n k -> place i n k' -> k = k'.
Proof. unfold place. intros. lia. Qed.
Lemma inserted_unique : forall i x l l1 l2, inserted i x l l1 -> inserted i x l l2 -> l1 = l2.
Proof.
  intros i x l l1 l2 (a & b & -> & -> & P) (a' & b' & E & -> & P').
  pose proof (place_unique _ _ _ _ P P') as L.
  apply app_inj_len in E as [-> ->]; auto.
Qed.
Lemma inserted_all_unique : forall ts l l1 l2, inserted_all ts l l1 -> inserted_all ts l l2 -> l1 = l2.
Proof.
  intros ts l l1 l2 H. revert l2. induction H as [ | s z ts l l1 l2 H1 H IH]; intros l3 H'; inversion H'; subst; auto.
  assert (l1 = l4) by (eapply inserted_unique; eauto). subst. auto.
Qed.
Lemma inserts_all : forall ops l, inserted_all ops l (inserts ops l).
Proof.
  intros ops. induction ops as [ | [s z] ops IH]; intros l; [constructor | ]. econstructor; [apply py_insert_inserted | ].
  apply IH.
Qed.

(** ** Sorting *)
Section Stable.
  Variable before : string -> string -> Prop.
  Definition lex (a b : move) : Prop := (snd a < snd b)%Z \/ snd a = snd b /\ before (fst a) (fst b).
  Lemma insert_stable : forall x l, StronglySorted lex l -> Forall (fun y => before (fst x) (fst y)) l ->
    StronglySorted lex (insert_by snd x l).
  Proof.
    intros x l H. induction H as [ | y l H IH F]; simpl; intros B; [repeat constructor | ].
    apply Forall_cons_iff in B as [B1 B2]. destruct (Z.leb_spec (snd x) (snd y)).
    - constructor; [constructor; auto | ]. constructor.
      + unfold lex. destruct (Z.eq_dec (snd x) (snd y)); [right; auto | left; lia].
      + rewrite Forall_forall in *. intros z Hz. specialize (F z Hz). specialize (B2 z Hz). unfold lex in *.
        destruct (Z.eq_dec (snd x) (snd z)); [right; auto | left; lia].
    - constructor; auto. rewrite insert_by_perm. constructor; [left; lia | auto].
  Qed.
  Lemma sort_stable : forall l, StronglySorted (fun a b : move => before (fst a) (fst b)) l -> StronglySorted lex (sort_by snd l).
  Proof.
    intros l H. induction H as [ | x l H IH F]; simpl; [constructor | ]. apply insert_stable; auto. rewrite sort_by_perm. auto.
  Qed.
  Hypothesis irr : forall a b, before a b -> before b a -> False.
  Lemma lex_asym : forall a b, lex a b -> lex b a -> False.
  Proof. unfold lex. intros a b [H | [E H]] [H' | [E' H']]; try lia. eauto. Qed.
  Lemma lex_unique : forall l l', StronglySorted lex l -> StronglySorted lex l' -> (forall x, In x l <-> In x l') -> l = l'.
  Proof.
    intros l l' H. revert l'. induction H as [ | x l H IH F]; intros l' H' E.
    - destruct l' as [ | y l']; auto. destruct (proj2 (E y) (or_introl eq_refl)).
    - destruct l' as [ | y l']; [destruct (proj1 (E x) (or_introl eq_refl)) | ].
      apply StronglySorted_inv in H' as [H' F']. rewrite Forall_forall in F, F'.
      assert (x = y).
      { destruct (proj1 (E x) (or_introl eq_refl)) as [Q | Q]; auto. destruct (proj2 (E y) (or_introl eq_refl)) as [Q' | Q']; auto.
        destruct (lex_asym x y); auto. }
      subst y. f_equal. apply IH; auto. intros z. split; intros Hz.
      + destruct (proj1 (E z) (or_intror Hz)) as [Q | Q]; auto. subst z. destruct (lex_asym x x); auto.
      + destruct (proj2 (E z) (or_intror Hz)) as [Q | Q]; auto. subst z. destruct (lex_asym x x); auto.
  Qed.
End Stable.
Lemma before_asym : forall names a b, NoDup names -> before names a b -> before names b a -> False.
Proof.
  intros names a b N (i & j & H1 & H2 & H3) (i' & j' & H1' & H2' & H3').
  rewrite (nth_NoDup _ i j' a N H1 H2'), (nth_NoDup _ j i' b N H2 H1') in H3. lia.
Qed.

(** ** The offsets by slot *)
Lemma counts_unique : forall ms s z z', counts ms s z -> counts ms s z' -> z = z'.
Proof.
  intros ms s z z' (a & b & E & H) (a' & b' & E' & H'). rewrite E in E'. clear E ms. revert a' E'.
  induction a as [ | x a IH]; intros [ | x' a'] E; cbn in E.
  - injection E as E _. congruence.
  - injection E as _ E. subst b. destruct H. rewrite map_app. apply in_app_iff. right. left. reflexivity.
  - injection E as _ E. subst b'. destruct H'. rewrite map_app. apply in_app_iff. right. left. reflexivity.
  - injection E as _ E. eauto.
Qed.
Lemma by_slot : forall l ms d, moves_of l ms -> offsets_by_slot l = Ok d ->
  dkeys d = first_listed (map fst ms) /\
  forall s o, dget s d = Some o -> exists z, counts ms s z /\ int_value (oget o "offset") z.
Proof.
  intros l ms d M E. unfold offsets_by_slot in E. revert E.
  set (f := fun d o => _).
  enough (K : forall pre d0 d, (forall s o, dget s d0 = Some o -> exists z, counts pre s z /\ int_value (oget o "offset") z) ->
    foldM f d0 l = Ok d ->
    dkeys d = (dkeys d0 ++ filter (fun s => negb (smem s (dkeys d0))) (first_listed (map fst ms)))%list /\
    forall s o, dget s d = Some o -> exists z, counts (pre ++ ms)%list s z /\ int_value (oget o "offset") z).
  { intros E. destruct (K [] [] d) as [K1 K2]; auto; [discriminate | ]. split; auto. rewrite K1. cbn. clear.
    induction (first_listed _) as [ | x l IH]; cbn; auto. f_equal. auto. }
  induction M as [ | o m l ms Ho M IH]; intros pre d0 d1 H0 E; cbn [foldM] in E.
  - injection E as <-. cbn. rewrite !app_nil_r. auto.
  - destruct m as [s0 z0]. destruct Ho as [Hs Hz]. apply bind_ok in E as (d2 & E1 & E). unfold f in E1 at 1.
    apply ostr_named in Hs. rewrite Hs in E1. injection E1 as <-.
    apply (IH (pre ++ [(s0, z0)])%list) in E as [K1 K2].
    + split; [ | rewrite <- app_assoc in K2; exact K2]. rewrite K1. cbn [map fst first_listed filter]. cbn [fst] in *.
      destruct (in_dec string_dec s0 (dkeys d0)) as [Hi | Hi].
      * rewrite (proj2 (smem_in _ _) Hi). cbn [negb]. rewrite dkeys_dset, (proj2 (smem_in _ _) Hi). f_equal. rewrite filter_filter.
        apply filter_ext. intros x. eqb_cases s0 x; cbn; [ | destruct (smem x (dkeys d0)); reflexivity]. subst x.
        rewrite (proj2 (smem_in _ _) Hi). reflexivity.
      * rewrite (proj2 (smem_nin _ _) Hi). cbn [negb]. rewrite dset_new by auto. unfold dkeys. rewrite map_app. cbn [map fst].
        rewrite <- app_assoc. cbn [app]. f_equal. f_equal. rewrite filter_filter. apply filter_ext. intros x.
        fold (dkeys d0). rewrite smem_app. cbn. eqb_cases x s0.
        -- subst x. rewrite seqb_refl. destruct (smem s0 (dkeys d0)); reflexivity.
        -- rewrite (proj2 (seqb_neq s0 x)) by congruence. destruct (smem x (dkeys d0)); reflexivity.
    + intros s o' Hg. rewrite dget_dset in Hg. eqb_cases s s0.
      * subst s. injection Hg as <-. exists z0. split; auto. exists pre, []. auto.
      * destruct (H0 s o' Hg) as (z & (a & b & -> & Hb) & Hv). exists z. split; auto. exists a, (b ++ [(s0, z0)])%list.
        rewrite <- app_assoc. split; auto. rewrite map_app, in_app_iff. cbn. intros [Q | [Q | []]]; congruence || auto.
Qed.
Lemma in_first_listed : forall l s, In s (first_listed l) <-> In s l.
Proof.
  intros l s. induction l as [ | x l IH]; [tauto | ]. cbn. rewrite filter_In, negb_true_iff, seqb_neq, IH.
  destruct (string_dec x s); tauto.
Qed.

(** ** The draw order *)
Lemma operations_before : forall d names i ops, operations d i names = Ok ops -> NoDup names ->
  StronglySorted (fun a b : move => before names (fst a) (fst b)) ops.
Proof.
  intros d names. induction names as [ | n names IH]; intros i ops E N; cbn [operations] in E.
  - injection E as <-. constructor.
  - assert (K : forall ops', StronglySorted (fun a b : move => before names (fst a) (fst b)) ops' ->
              StronglySorted (fun a b : move => before (n :: names) (fst a) (fst b)) ops').
    { intros ops' H. induction H as [ | x ops' H IH' F]; constructor; auto. eapply Forall_impl; [ | exact F].
      intros y (a & b & H1 & H2 & H3). exists (S a), (S b). repeat split; auto. lia. }
    apply NoDup_cons_iff in N as [_ N]. destruct (dget n d) as [o | ]; [ | apply K; eapply IH; eauto].
    apply bind_ok in E as (off & _ & E). apply bind_ok in E as (ops' & E & E'). injection E' as <-. constructor; [apply K; eapply IH; eauto | ].
    apply operations_spec in E as [E _]. apply Forall_forall. intros x Hx. apply (in_map fst) in Hx. rewrite E in Hx.
    apply filter_In in Hx as [Hx _]. apply In_nth_error in Hx as [k Hk]. exists 0, (S k). repeat split; auto. lia.
Qed.
Lemma reorder_drawn : forall l ms names d r, NoDup names -> moves_of l ms -> offsets_by_slot l = Ok d ->
  reorder_slots_with_offset d names = Ok r -> drawn names ms r.
Proof.
  intros l ms names d r N M Ed E. destruct (by_slot _ _ _ M Ed) as [Kd Kg]. unfold reorder_slots_with_offset in E.
  apply bind_ok in E as (ops & Eo & E). injection E as <-. exists (sort_by snd ops). split.
  - split; [apply sort_stable; eapply operations_before; eauto | ]. intros s t.
    assert (P : In (s, t) (sort_by snd ops) <-> In (s, t) ops).
    { split; apply Permutation_in; [ | symmetry]; apply sort_by_perm. }
    rewrite P. destruct (operations_spec _ _ _ _ Eo) as [H1 H2].
    assert (H3 : forall s t, In (s, t) ops -> exists i z, nth_error names i = Some s /\ counts ms s z /\ t = (Z.of_nat i + z)%Z).
    { intros s' t' H. destruct (H2 s' t' H) as (k & o & off & K1 & K2 & K3 & ->). destruct (Kg s' o K2) as (z & C & V).
      apply as_int_value in V. rewrite K3 in V. injection V as <-. exists k, off. auto. }
    split; auto. intros (i & z & Hi & C & ->).
    assert (Hs : In s (map fst ops)).
    { rewrite H1. apply filter_In. split; [eapply nth_error_In; eauto | ]. apply dmem_in. rewrite Kd. apply in_first_listed.
      destruct C as (a & b & -> & _). rewrite map_app. apply in_app_iff. right. left. auto. }
    apply in_map_iff in Hs as ([s' t'] & Q & Hs). cbn in Q. subst s'. destruct (H3 _ _ Hs) as (i' & z' & Hi' & C' & ->).
    rewrite (nth_NoDup _ i i' s N Hi Hi'), (counts_unique _ _ _ _ C C'). auto.
  - fold (inserts (sort_by snd ops) (filter (fun n => negb (dmem n d)) names)).
    assert (Q : filter (fun n => negb (dmem n d)) names = filter (unlisted ms) names).
    { apply filter_ext. intros x. unfold unlisted. f_equal. rewrite dmem_smem. fold (dkeys d). rewrite Kd.
      destruct (smem x (map fst ms)) eqn:Ex.
      - apply smem_in. apply in_first_listed. apply smem_in. auto.
      - apply smem_nin. rewrite in_first_listed. apply smem_nin. auto. }
    rewrite Q. apply inserts_all.
Qed.
Lemma drawn_unique : forall names ms l l', NoDup names -> drawn names ms l -> drawn names ms l' -> l = l'.
Proof.
  intros names ms l l' N (ts & (S1 & H1) & I) (ts' & (S2 & H2) & I').
  assert (ts = ts').
  { apply (lex_unique (before names)); auto.
    - intros a b. apply before_asym. auto.
    - intros [s t]. rewrite H1, H2. tauto. }
  subst ts'. eapply inserted_all_unique; eauto.
Qed.
Lemma drawn_exists : forall names ms, NoDup names -> exists l, drawn names ms l.
Proof.
  intros names ms N. set (objs := map (fun m : move => mkObj CDrawOffset [("slot", VStr (fst m)); ("offset", VInt (snd m))]) ms).
  assert (M : moves_of objs ms).
  { unfold objs. clear. induction ms as [ | m ms IH]; constructor; auto. split; [reflexivity | left; reflexivity]. }
  destruct (offsets_by_slot_total objs) as [d Ed].
  destruct (operations_total d names 0) as [ops Eo].
  { intros s o _ H. destruct (by_slot _ _ _ M Ed) as [_ K]. destruct (K s o H) as (z & _ & V). exists z. apply as_int_value. auto. }
  eexists. eapply reorder_drawn; eauto. unfold reorder_slots_with_offset. rewrite Eo. reflexivity.
Qed.
Lemma drawn_perm : forall names ms l, NoDup names -> drawn names ms l -> Permutation l names.
Proof.
  intros names ms l N H. set (objs := map (fun m : move => mkObj CDrawOffset [("slot", VStr (fst m)); ("offset", VInt (snd m))]) ms).
  assert (M : moves_of objs ms).
  { unfold objs. clear. induction ms as [ | m ms IH]; constructor; auto. split; [reflexivity | left; reflexivity]. }
  destruct (offsets_by_slot_total objs) as [d Ed].
  destruct (operations_total d names 0) as [ops Eo].
  { intros s o _ H'. destruct (by_slot _ _ _ M Ed) as [_ K]. destruct (K s o H') as (z & _ & V). exists z. apply as_int_value. auto. }
  assert (E : exists r, reorder_slots_with_offset d names = Ok r) by (unfold reorder_slots_with_offset; rewrite Eo; cbn [bind]; eexists; reflexivity).
  destruct E as [r E]. rewrite (drawn_unique names ms l r); auto; [eapply reorder_perm; eauto | eapply reorder_drawn; eauto].
Qed.
(** With valid moves it is the draw order of the Spine runtime. *)
Lemma drawn_valid : forall names ms l, NoDup names -> valid_moves names ms -> (drawn names ms l <-> draw_order_of names ms l).
Proof.
  intros names ms l N V. set (objs := map (fun m : move => mkObj CDrawOffset [("slot", VStr (fst m)); ("offset", VInt (snd m))]) ms).
  assert (M : moves_of objs ms).
  { unfold objs. clear. induction ms as [ | m ms IH]; constructor; auto. split; [reflexivity | left; reflexivity]. }
  destruct (reorder_valid _ _ _ N M V) as (d & r & E1 & _ & E2 & D).
  pose proof (reorder_drawn _ _ _ _ _ N M E1 E2) as D'. split; intros H.
  - rewrite (drawn_unique names ms l r); auto.
  - rewrite (draw_order_unique names ms l r); auto.
Qed.

(** ** remove_offsets_with_ids *)
Lemma flat_new_moves_sub : forall r kn kf keys, sublist (map fst (flat_map (new_moves r kn kf) keys)) keys.
Proof.
  intros r kn kf keys. induction keys as [ | k keys IH]; [constructor | ]. cbn [flat_map]. unfold new_moves at 1.
  destruct (smem k r); [constructor; auto | ]. destruct (py_index kn k); [ | constructor; auto].
  destruct (py_index kf k); [ | constructor; auto]. destruct (_ =? 0)%Z; cbn; [apply sl_skip | apply sl_keep]; auto.
Qed.
Lemma remove_offsets_any : forall removed names d d' ms, NoDup names -> moves_of (do_offsets d) ms ->
  remove_offsets_with_ids removed names d = (d', Ok tt) ->
  exists l, drawn names ms l /\ do_time d' = do_time d /\ exists ms', moves_of (do_offsets d') ms' /\
    sublist (map fst ms') (first_listed (map fst ms)) /\
    forall s z, In (s, z) ms' <-> In s (map fst ms) /\ ~ In s removed /\ z <> 0%Z /\
      exists i j, nth_error (survivors removed names) i = Some s /\ nth_error (survivors removed l) j = Some s /\
        z = (Z.of_nat j - Z.of_nat i)%Z.
Proof.
  intros removed names d d' ms N M E. destruct (remove_offsets_ok _ _ _ _ N E) as (slots & final & Es & Ef & P & Nk & Ht & M').
  destruct (by_slot _ _ _ M Es) as [Kd _]. exists final. split; [eapply reorder_drawn; eauto | ]. split; auto.
  eexists. split; [exact M' | ]. split; [rewrite <- Kd; apply flat_new_moves_sub | ].
  intros s z. rewrite in_new_moves by auto. rewrite Kd, in_first_listed. tauto.
Qed.
