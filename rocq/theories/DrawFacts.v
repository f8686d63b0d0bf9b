(** Facts about rewriting draw orders. *)
From Coq Require Import Sorted.
From Verif Require Import PyBase PyFacts Json Classes SpineGraph DrawOrder SpecDraw.
Open Scope string_scope.

(** ** Sorting *)
Section Sort.
  Context {A : Type} (key : A -> Z).
  Lemma insert_by_perm : forall x l, Permutation (insert_by key x l) (x :: l).
  Proof.
    intros x l. induction l as [ | y l IH]; simpl; auto. destruct (key x <=? key y)%Z; auto.
    rewrite IH. apply perm_swap.
  Qed.
  Lemma sort_by_perm : forall l, Permutation (sort_by key l) l.
  Proof. induction l as [ | x l IH]; simpl; auto. rewrite insert_by_perm. auto. Qed.
  Definition sorted := StronglySorted (fun a b => (key a <= key b)%Z).
  Lemma insert_by_sorted : forall x l, sorted l -> sorted (insert_by key x l).
  Proof.
    intros x l H. induction H as [ | y l H IH F]; simpl; [repeat constructor | ].
    destruct (Z.leb_spec (key x) (key y)).
    - constructor; [constructor; auto | ]. constructor; auto. eapply Forall_impl; [ | eauto]. intros; simpl in *; lia.
    - constructor; auto. rewrite insert_by_perm. constructor; [lia | auto].
  Qed.
  Lemma sort_by_sorted : forall l, sorted (sort_by key l).
  Proof. induction l; simpl; [constructor | apply insert_by_sorted; auto]. Qed.
End Sort.

(** ** list.insert *)
Lemma py_insert_perm : forall A i (x : A) l, Permutation (py_insert i x l) (x :: l).
Proof. intros. unfold py_insert. rewrite <- Permutation_middle. rewrite firstn_skipn. auto. Qed.
Lemma py_insert_at : forall A (x : A) l j, j <= length l -> py_insert (Z.of_nat j) x l = (firstn j l ++ x :: skipn j l)%list.
Proof.
  intros A x l j H. unfold py_insert. destruct (Z.ltb_spec (Z.of_nat j) 0); [lia | ].
  rewrite Z.min_l by lia. rewrite Nat2Z.id. auto.
Qed.
Lemma nth_py_insert : forall A (x : A) l j i, j <= length l ->
  nth_error (py_insert (Z.of_nat j) x l) i =
  if Nat.ltb i j then nth_error l i else if Nat.eqb i j then Some x else nth_error l (i - 1).
Proof.
  intros A x l j i H. rewrite py_insert_at by auto. pose proof (firstn_length_le l H) as F.
  destruct (Nat.ltb_spec i j).
  - rewrite nth_error_app1 by lia. rewrite <- (firstn_skipn j l) at 2. rewrite nth_error_app1 by lia. auto.
  - rewrite nth_error_app2 by lia. rewrite F. destruct (Nat.eqb_spec i j).
    + subst. rewrite Nat.sub_diag. auto.
    + destruct (i - j) as [ | k] eqn:E; [lia | ]. simpl. replace (i - 1) with (j + k) by lia.
      rewrite <- (firstn_skipn j l) at 2. rewrite nth_error_app2 by lia. f_equal. lia.
Qed.
Lemma filter_py_insert : forall A (f : A -> bool) i x l, f x = false -> filter f (py_insert i x l) = filter f l.
Proof.
  intros A f i x l H. unfold py_insert. cbv zeta. set (n := Z.to_nat _). rewrite filter_app. simpl. rewrite H.
  rewrite <- filter_app, firstn_skipn. auto.
Qed.

(** ** Sequences of insertions at increasing places *)
Definition inserts (ops : list (string * Z)) (l : list string) : list string :=
  fold_left (fun l op => py_insert (snd op) (fst op) l) ops l.
Lemma inserts_perm : forall ops l, Permutation (inserts ops l) (map fst ops ++ l)%list.
Proof.
  intros ops. induction ops as [ | [s z] ops IH]; intros l; simpl; auto. unfold inserts in *. simpl. rewrite IH, py_insert_perm.
  rewrite <- Permutation_middle. auto.
Qed.
Lemma inserts_filter : forall f ops l, (forall s, In s (map fst ops) -> f s = false) -> filter f (inserts ops l) = filter f l.
Proof.
  intros f ops. unfold inserts. induction ops as [ | [s z] ops IH]; intros l H; simpl; auto. rewrite IH by (intros; apply H; simpl; auto).
  apply filter_py_insert. apply H. simpl. auto.
Qed.
Lemma inserts_length : forall ops l, length (inserts ops l) = length ops + length l.
Proof. intros. rewrite (Permutation_length (inserts_perm ops l)), app_length, map_length. auto. Qed.

(** strictly increasing places that fit *)
Fixpoint fits (ops : list (string * Z)) (lo n : Z) : Prop :=
  match ops with
  | [] => True
  | (_, z) :: ops' => (lo <= z <= n)%Z /\ fits ops' (z + 1) (n + 1)
  end.
Lemma inserts_below : forall ops l lo i, fits ops lo (Z.of_nat (length l)) -> (0 <= lo)%Z -> (Z.of_nat i < lo)%Z ->
  nth_error (inserts ops l) i = nth_error l i.
Proof.
  intros ops. unfold inserts. induction ops as [ | [s z] ops IH]; intros l lo i F Hlo Hi; simpl; auto.
  destruct F as [Hz F]. rewrite (IH _ (z + 1)%Z); auto; try lia.
  - replace z with (Z.of_nat (Z.to_nat z)) by lia. rewrite nth_py_insert by lia.
    destruct (Nat.ltb_spec i (Z.to_nat z)); auto. lia.
  - rewrite (Permutation_length (py_insert_perm _ _ _ _)). simpl length.
    replace (Z.of_nat (S (length l))) with (Z.of_nat (length l) + 1)%Z by lia. auto.
Qed.
Lemma inserts_place : forall ops l lo s z, fits ops lo (Z.of_nat (length l)) -> (0 <= lo)%Z -> In (s, z) ops ->
  (0 <= z)%Z /\ nth_error (inserts ops l) (Z.to_nat z) = Some s.
Proof.
  intros ops. induction ops as [ | [s' z'] ops IH]; intros l lo s z F Hlo Hi; [destruct Hi | ].
  destruct F as [Hz F].
  assert (F' : fits ops (z' + 1) (Z.of_nat (length (py_insert z' s' l)))).
  { rewrite (Permutation_length (py_insert_perm _ _ _ _)). simpl length.
    replace (Z.of_nat (S (length l))) with (Z.of_nat (length l) + 1)%Z by lia. auto. }
  destruct Hi as [E | Hi].
  - injection E as -> ->. split; [lia | ].
    change (inserts ((s, z) :: ops) l) with (inserts ops (py_insert z s l)).
    rewrite (inserts_below _ _ (z + 1)%Z) by (auto; lia). replace z with (Z.of_nat (Z.to_nat z)) at 1 by lia.
    rewrite nth_py_insert by lia. rewrite Nat.ltb_irrefl, Nat.eqb_refl. auto.
  - apply (IH (py_insert z' s' l) (z' + 1)%Z); auto. lia.
Qed.

Lemma sorted_fits : forall ops m lo, sorted snd ops -> NoDup (map snd ops) ->
  Forall (fun op : string * Z => (lo <= snd op < m + Z.of_nat (length ops))%Z) ops -> fits ops lo m.
Proof.
  intros ops. induction ops as [ | [s z] ops IH]; intros m lo S N F; simpl; auto.
  apply StronglySorted_inv in S as [S S']. simpl in N. apply NoDup_cons_iff in N as [N1 N2].
  apply Forall_cons_iff in F as [F1 F2]. simpl in F1.
  assert (K : Forall (fun op : string * Z => (z + 1 <= snd op < (m + 1) + Z.of_nat (length ops))%Z) ops).
  { apply Forall_forall. intros op Hop. rewrite Forall_forall in S', F2. specialize (S' op Hop). specialize (F2 op Hop).
    simpl in S', F2. cbn [length] in F2. assert (snd op <> z). { intros E. apply N1. rewrite <- E. apply in_map. auto. } lia. }
  split; [ | apply IH; auto]. split; [lia | ].
  (* the later places are larger: by pigeonhole z <= m *)
  assert (P : forall (l : list Z) a, NoDup l -> (forall x, In x l -> a <= x < a + Z.of_nat (length l))%Z ->
             True) by auto. clear P.
  destruct (Z.le_gt_cases z m) as [ | G]; auto. exfalso.
  assert (L : (length (map snd ops) <= length (map (fun i => z + 1 + Z.of_nat i)%Z (seq 0 (length ops - 1))))%nat).
  { apply NoDup_incl_length; auto. intros x Hx. apply in_map_iff in Hx as (op & <- & Hop). rewrite Forall_forall in K.
    specialize (K op Hop). simpl in K. apply in_map_iff. exists (Z.to_nat (snd op - z - 1)). split; [lia | ].
    apply in_seq. lia. }
  rewrite !map_length, seq_length in L. destruct ops as [ | op ops]; [ | simpl in L; lia].
  cbn [length] in F1. lia.
Qed.

(** ** operations *)
Lemma as_int_value : forall v z, as_int v = Ok z <-> int_value v z.
Proof.
  unfold int_value. intros v z. split.
  - destruct v as [ | b | i | f | s | l | d]; simpl; intros E; try discriminate; injection E as <-; auto. destruct b; auto.
  - intros [-> | [[-> ->] | [-> ->]]]; auto.
Qed.
Lemma operations_spec : forall d names i ops, operations d i names = Ok ops ->
  map fst ops = filter (fun n => dmem n d) names /\
  forall s z, In (s, z) ops -> exists k o off, nth_error names k = Some s /\ dget s d = Some o /\
    as_int (oget o "offset") = Ok off /\ z = (i + Z.of_nat k + off)%Z.
Proof.
  intros d names. induction names as [ | n names IH]; intros i ops E; cbn [operations] in E.
  - injection E as <-. split; auto. intros s z [].
  - simpl filter. unfold dmem at 1. destruct (dget n d) as [o | ] eqn:Eo.
    + apply bind_ok in E as (off & E1 & E). apply bind_ok in E as (ops' & E2 & E). injection E as <-.
      destruct (IH _ _ E2) as [H1 H2]. split; [simpl; f_equal; auto | ]. intros s z [Q | Q].
      * injection Q as <- <-. exists 0, o, off. repeat split; auto. lia.
      * destruct (H2 s z Q) as (k & o' & off' & K1 & K2 & K3 & ->). exists (S k), o', off'. repeat split; auto. lia.
    + destruct (IH _ _ E) as [H1 H2]. split; auto. intros s z Q.
      destruct (H2 s z Q) as (k & o' & off' & K1 & K2 & K3 & ->). exists (S k), o', off'. repeat split; auto. lia.
Qed.
Lemma operations_total : forall d names i, (forall s o, In s names -> dget s d = Some o -> exists z, as_int (oget o "offset") = Ok z) ->
  exists ops, operations d i names = Ok ops.
Proof.
  intros d names. induction names as [ | n names IH]; intros i H; cbn [operations]; [eauto | ].
  destruct (IH (i + 1)%Z) as [ops E]; [intros s o Hs; apply H; simpl; auto | ]. destruct (dget n d) as [o | ] eqn:Eo; eauto.
  destruct (H n o) as [z Ez]; simpl; auto. rewrite Ez, E. simpl. eauto.
Qed.

(** ** The offsets by slot *)
Definition named (o : obj) (s : string) : Prop := oget o "slot" = VStr s.
Lemma ostr_named : forall o s, ostr o "slot" = Some s <-> named o s.
Proof. intros o s. unfold ostr, named. destruct (oget o "slot"); simpl; split; congruence. Qed.
Lemma offsets_by_slot_ok : forall l d, offsets_by_slot l = Ok d ->
  NoDup (dkeys d) /\ (forall s o, dget s d = Some o -> In o l /\ named o s) /\
  (forall o s, In o l -> named o s -> In s (dkeys d)).
Proof.
  intros l d. unfold offsets_by_slot. set (f := fun d o => _).
  enough (K : forall l d0 d, foldM f d0 l = Ok d -> NoDup (dkeys d0) ->
    NoDup (dkeys d) /\ (forall s o, dget s d = Some o -> (In o l /\ named o s) \/ dget s d0 = Some o) /\
    (forall o s, In o l -> named o s -> In s (dkeys d)) /\ incl (dkeys d0) (dkeys d)).
  { intros E. destruct (K l [] d E) as (H1 & H2 & H3 & _); [constructor | ]. split; [auto | split; auto].
    intros s o H. apply H2 in H as [H | H]; auto. discriminate. }
  clear l d. intros l. induction l as [ | o l IH]; intros d0 d E N.
  - simpl in E. injection E as <-. split; [auto | split; [auto | split; [intros o s [] | apply incl_refl]]].
  - cbn [foldM] in E. apply bind_ok in E as (d1 & E1 & E). unfold f in E1 at 1. destruct (ostr o "slot") as [s0 | ] eqn:Es.
    2: { injection E1 as <-. apply IH in E as (H1 & H2 & H3 & H4); auto. split; [auto | split; [ | split; auto]].
         - intros s o' H. apply H2 in H as [[H Hn] | H]; simpl; auto.
         - intros o' s [<- | H] Hn; eauto. apply ostr_named in Hn. congruence. }
    injection E1 as <-. apply IH in E as (H1 & H2 & H3 & H4); [ | apply NoDup_dset; auto]. apply ostr_named in Es.
    split; [auto | split; [ | split]].
    + intros s o' H. apply H2 in H as [[H Hn] | H]; [left; simpl; auto | ]. rewrite dget_dset in H. eqb_cases s s0; auto.
      injection H as <-. left. subst. simpl. auto.
    + intros o' s [<- | H] Hn; eauto. apply H4. apply in_dkeys_dset. left. unfold named in *. congruence.
    + intros x Hx. apply H4. apply in_dkeys_dset. auto.
Qed.
Lemma offsets_by_slot_total : forall l, exists d, offsets_by_slot l = Ok d.
Proof.
  intros l. unfold offsets_by_slot. generalize (@nil (string * obj)) as d0. induction l as [ | o l IH]; intros d0; cbn [foldM]; [eauto | ].
  destruct (ostr o "slot"); cbn [bind]; apply IH.
Qed.
Lemma has_slots : forall l, forallb has_slot l = true <-> forall o, In o l -> exists s, named o s.
Proof.
  intros l. rewrite forallb_forall. split; intros H o Ho; specialize (H o Ho); unfold has_slot in *.
  - destruct (ostr o "slot") as [s | ] eqn:E; [ | discriminate]. exists s. apply ostr_named. auto.
  - destruct H as [s H]. apply ostr_named in H. rewrite H. auto.
Qed.
Lemma offsets_by_slot_distinct : forall l ms, moves_of l ms -> NoDup (map fst ms) ->
  exists d, offsets_by_slot l = Ok d /\ d = combine (map fst ms) l.
Proof.
  intros l ms H N. unfold offsets_by_slot.
  enough (K : forall d0, (forall s, In s (map fst ms) -> ~ In s (dkeys d0)) ->
    foldM (fun d o => match ostr o "slot" with Some s => Ok (dset s o d) | None => Ok d end) d0 l
     = Ok (d0 ++ combine (map fst ms) l)%list). { eexists. split; [apply K | reflexivity]. intros s _ []. }
  induction H as [ | o m l ms Ho H IH]; intros d0 Hd; cbn [foldM]; [simpl; rewrite app_nil_r; auto | ].
  destruct Ho as [Hs _]. apply ostr_named in Hs. rewrite Hs. cbn [bind]. simpl map in *. apply NoDup_cons_iff in N as [N1 N2].
  rewrite dset_new by (apply Hd; left; auto). rewrite IH; auto.
  - simpl. rewrite <- app_assoc. auto.
  - intros s Hi Hk. unfold dkeys in Hk. rewrite map_app, in_app_iff in Hk. destruct Hk as [Hk | [<- | []]]; auto.
    eapply Hd; [right; eauto | auto].
Qed.

(** ** Draw orders are unique *)
Lemma filter_pointwise : forall (P : string -> bool) l l',
  length l = length l' ->
  (forall i s, nth_error l i = Some s -> P s = false -> nth_error l' i = Some s) ->
  (forall i s, nth_error l' i = Some s -> P s = false -> nth_error l i = Some s) ->
  filter P l = filter P l' -> l = l'.
Proof.
  intros P l. induction l as [ | x l IH]; intros [ | y l'] L H1 H2 F; try discriminate; auto.
  assert (x = y /\ filter P l = filter P l') as [-> F'].
  { simpl in F. destruct (P x) eqn:Px.
    - destruct (P y) eqn:Py; [injection F; auto | ]. specialize (H2 0 y eq_refl Py). injection H2 as ->. congruence.
    - specialize (H1 0 x eq_refl Px). injection H1 as ->. rewrite Px in F. auto. }
  f_equal. apply IH; auto.
  - intros i s. apply (H1 (S i)).
  - intros i s. apply (H2 (S i)).
Qed.
Lemma nth_NoDup : forall (l : list string) i j s, NoDup l -> nth_error l i = Some s -> nth_error l j = Some s -> i = j.
Proof.
  intros l i j s N H1 H2. apply (proj1 (NoDup_nth_error l) N i j); [apply nth_error_Some; congruence | congruence].
Qed.
Lemma draw_order_unique : forall names ms l l', NoDup names -> draw_order_of names ms l -> draw_order_of names ms l' -> l = l'.
Proof.
  assert (K : forall names ms l l' i s, NoDup names -> draw_order_of names ms l -> draw_order_of names ms l' ->
            nth_error l i = Some s -> unlisted ms s = false -> nth_error l' i = Some s).
  { intros names ms l l' i s N (P & H & F) (P' & H' & F') Hi Hu. unfold unlisted in Hu. apply negb_false_iff, smem_in in Hu.
    apply in_map_iff in Hu as ([s' z] & E & Hm). simpl in E. subst s'.
    assert (Hn : In s names) by (eapply Permutation_in; [exact P | eapply nth_error_In; eauto]).
    apply In_nth_error in Hn as [k Hk]. destruct (H s z k Hm Hk) as (j & Ej & Hj). destruct (H' s z k Hm Hk) as (j' & Ej' & Hj').
    assert (Nl : NoDup l) by (eapply Permutation_NoDup; [symmetry; eauto | auto]).
    assert (i = j) by (apply (nth_NoDup l i j s); auto). subst. replace j with j' by lia. auto. }
  intros names ms l l' N D D'. apply filter_pointwise with (P := unlisted ms).
  - destruct D as [P _], D' as [P' _]. apply Permutation_length in P, P'. congruence.
  - intros i s. apply (K names); auto.
  - intros i s. apply (K names); auto.
  - destruct D as (_ & _ & F), D' as (_ & _ & F'). congruence.
Qed.

(** ** reorder_slots_with_offset *)
Lemma reorder_perm : forall d names l, reorder_slots_with_offset d names = Ok l -> Permutation l names.
Proof.
  intros d names l E. unfold reorder_slots_with_offset in E. apply bind_ok in E as (ops & Eo & E). injection E as <-.
  fold (inserts (sort_by snd ops) (filter (fun n => negb (dmem n d)) names)). rewrite inserts_perm.
  destruct (operations_spec _ _ _ _ Eo) as [H _].
  rewrite (Permutation_map fst (sort_by_perm snd ops)), H. clear. induction names as [ | n names IH]; simpl; auto.
  destruct (dmem n d); simpl; auto. rewrite <- Permutation_middle. auto.
Qed.
Lemma combine_dget : forall l ms s o, moves_of l ms -> dget s (combine (map fst ms) l) = Some o ->
  exists z, In (s, z) ms /\ In o l /\ offset_of o (s, z).
Proof.
  intros l ms s o H. induction H as [ | o' m l ms Ho H IH]; simpl; [discriminate | ]. eqb_cases s (fst m).
  - intros Q. injection Q as <-. exists (snd m). subst. destruct m; simpl in *; auto.
  - intros Q. destruct (IH Q) as (z & H1 & H2 & H3). exists z. simpl. auto.
Qed.
Lemma combine_keys : forall l ms, moves_of l ms -> dkeys (combine (map fst ms) l) = map fst ms.
Proof. intros l ms H. induction H; simpl; f_equal; auto. Qed.

Lemma map_snd_NoDup : forall A (l : list (string * A)),
  NoDup (map fst l) -> (forall s s' a, In (s, a) l -> In (s', a) l -> s = s') -> NoDup (map snd l).
Proof.
  intros A l. induction l as [ | [s a] l IH]; simpl; intros N H; constructor; apply NoDup_cons_iff in N as [N1 N2].
  - intros Hi. apply in_map_iff in Hi as ([s' a'] & E & Hi). simpl in E. subst a'. apply N1.
    rewrite (H s s' a); auto. apply in_map_iff. exists (s', a). auto.
  - apply IH; auto. intros. eapply H; eauto.
Qed.

Lemma reorder_valid : forall l ms names, NoDup names -> moves_of l ms -> valid_moves names ms ->
  exists d r, offsets_by_slot l = Ok d /\ d = combine (map fst ms) l /\ reorder_slots_with_offset d names = Ok r /\ draw_order_of names ms r.
Proof.
  intros l ms names N M (V1 & V2 & V3). destruct (offsets_by_slot_distinct l ms M V1) as (d & Ed & Hd). exists d.
  assert (Hk : dkeys d = map fst ms) by (subst d; apply combine_keys; auto).
  assert (Hg : forall s o, dget s d = Some o -> exists z, In (s, z) ms /\ offset_of o (s, z)).
  { subst d. intros s o H. destruct (combine_dget _ _ _ _ M H) as (z & H1 & _ & H2). eauto. }
  destruct (operations_total d names 0) as [ops Eo].
  { intros s o _ H. destruct (Hg s o H) as (z & _ & _ & Hz). exists z. apply as_int_value. auto. }
  pose proof (operations_spec _ _ _ _ Eo) as [H1 H2].
  assert (H3 : forall s z, In (s, z) ops -> exists k off, nth_error names k = Some s /\ In (s, off) ms /\ z = (Z.of_nat k + off)%Z).
  { intros s z H. destruct (H2 s z H) as (k & o & off & K1 & K2 & K3 & ->). exists k, off. repeat split; auto.
    destruct (Hg s o K2) as (off' & Ho & _ & Hv). apply as_int_value in Hv. simpl in Hv. rewrite K3 in Hv. injection Hv as <-. auto. }
  assert (Nf : NoDup (map fst ops)) by (rewrite H1; apply NoDup_filter; auto).
  assert (Ns : NoDup (map snd ops)).
  { apply map_snd_NoDup; auto. intros s s' a Ha Hb. destruct (H3 _ _ Ha) as (k & off & K1 & K2 & ->).
    destruct (H3 _ _ Hb) as (k' & off' & K1' & K2' & Eq). eapply V3; eauto. }
  set (rest := filter (fun n => negb (dmem n d)) names).
  assert (Len : length names = length ops + length rest).
  { assert (E : length ops = length (filter (fun n => dmem n d) names)) by (rewrite <- (map_length fst), H1; auto).
    rewrite E. unfold rest. clear. induction names as [ | n names IH]; simpl; auto. destruct (dmem n d); simpl; lia. }
  assert (F : fits (sort_by snd ops) 0 (Z.of_nat (length rest))).
  { apply sorted_fits.
    - apply sort_by_sorted.
    - eapply Permutation_NoDup; [ | exact Ns]. apply Permutation_map. symmetry. apply sort_by_perm.
    - rewrite (Permutation_length (sort_by_perm snd ops)). apply Forall_forall. intros [s z] H.
      apply (Permutation_in _ (sort_by_perm snd ops)) in H. destruct (H3 _ _ H) as (k & off & K1 & K2 & ->).
      destruct (V2 s off K2) as (i & j & Q1 & Q2 & Q3). assert (i = k) by (apply (nth_NoDup names i k s); auto). subst. simpl. lia. }
  eexists. split; [auto | ]. split; [auto | ]. unfold reorder_slots_with_offset. rewrite Eo. cbn [bind]. split; [reflexivity | ].
  fold (inserts (sort_by snd ops) rest).
  assert (E : reorder_slots_with_offset d names = Ok (inserts (sort_by snd ops) rest))
    by (unfold reorder_slots_with_offset; rewrite Eo; reflexivity).
  split; [eapply reorder_perm; eauto | split].
  - intros s z i Hm Hi.
    assert (Ho : In (s, (Z.of_nat i + z)%Z) ops).
    { assert (Hs : In s (map fst ops)).
      { rewrite H1. apply filter_In. split; [eapply nth_error_In; eauto | ]. apply dmem_in. rewrite Hk. apply in_map_iff. exists (s, z). auto. }
      apply in_map_iff in Hs as ([s' t] & Q & Hs). simpl in Q. subst s'. destruct (H3 _ _ Hs) as (k & off & K1 & K2 & ->).
      assert (i = k) by (apply (nth_NoDup names i k s); auto). subst.
      assert (z = off); [ | subst; auto]. clear - V1 Hm K2. induction ms as [ | [a b] ms IH]; [destruct Hm | ].
      simpl in V1. apply NoDup_cons_iff in V1 as [W1 W2].
      destruct Hm as [Y | Hm]; destruct K2 as [Y' | K2]; try congruence; auto.
      - injection Y as -> ->. destruct W1. apply in_map_iff. exists (s, off). auto.
      - injection Y' as -> ->. destruct W1. apply in_map_iff. exists (s, z). auto. }
    apply (Permutation_in _ (Permutation_sym (sort_by_perm snd ops))) in Ho.
    destruct (inserts_place _ _ _ _ _ F (Z.le_refl 0) Ho) as [P1 P2]. exists (Z.to_nat (Z.of_nat i + z)). split; [lia | auto].
  - rewrite inserts_filter.
    + unfold rest. rewrite filter_filter. apply filter_ext. intros x. unfold unlisted. rewrite dmem_smem, Hk.
      destruct (smem x (map fst ms)); auto.
    + intros s Hs. unfold unlisted. apply negb_false_iff, smem_in.
      apply (Permutation_in _ (Permutation_map fst (sort_by_perm snd ops))) in Hs. rewrite H1 in Hs. apply filter_In in Hs as [_ Hs].
      apply dmem_in in Hs. rewrite Hk in Hs. auto.
Qed.

(** ** adjust_offsets *)
Lemma index_from_some : forall x l i r, index_from i x l = Some r ->
  exists k, r = (i + Z.of_nat k)%Z /\ nth_error l k = Some x.
Proof.
  intros x l. induction l as [ | y l IH]; intros i r E; cbn [index_from] in E; [discriminate | ]. eqb_cases x y.
  - injection E as <-. exists 0. subst. split; [lia | auto].
  - apply IH in E as (k & -> & H). exists (S k). split; [lia | auto].
Qed.
Lemma index_from_in : forall x l i, In x l -> exists r, index_from i x l = Some r.
Proof.
  intros x l. induction l as [ | y l IH]; intros i H; [destruct H | ]. cbn [index_from]. eqb_cases x y; eauto.
  destruct H; [congruence | auto].
Qed.
Lemma index_from_none : forall x l i, ~ In x l -> index_from i x l = None.
Proof.
  intros x l. induction l as [ | y l IH]; intros i H; auto. cbn [index_from]. eqb_cases x y.
  - destruct H. left. congruence.
  - apply IH. intros Hi. apply H. right. auto.
Qed.
Lemma py_index_ok : forall l x i, py_index l x = Ok i -> exists k, i = Z.of_nat k /\ nth_error l k = Some x.
Proof.
  intros l x i E. unfold py_index in E. destruct (index_from 0 x l) as [r | ] eqn:Er; [ | discriminate].
  injection E as <-. apply index_from_some in Er as (k & -> & H). exists k. split; [lia | auto].
Qed.
Lemma py_index_in : forall l x, In x l -> exists i, py_index l x = Ok i.
Proof. intros l x H. unfold py_index. destruct (index_from_in x l 0 H) as [r ->]. eauto. Qed.
Lemma py_index_nin : forall l x, ~ In x l -> py_index l x = Err (EValue "x not in list").
Proof. intros l x H. unfold py_index. rewrite index_from_none; auto. Qed.

Lemma oget_oset : forall o k k' v, oget (oset o k' v) k = if String.eqb k k' then v else oget o k.
Proof. intros. unfold oget, oset. simpl. rewrite dget_dset. destruct (String.eqb k k'); auto. Qed.

Definition new_moves (removed kn kf : list string) (s : string) : list move :=
  if smem s removed then []
  else match py_index kn s, py_index kf s with
       | Ok i, Ok j => if Z.eqb (j - i) 0 then [] else [(s, (j - i)%Z)]
       | _, _ => []
       end.
Definition adj1 (removed kn kf : list string) (kv : string * obj) : res (string * obj) :=
  let '(name, o) := kv in
  if smem name removed then Ok (name, o)
  else let! index_original := py_index kn name in
       let! index_final := py_index kf name in
       Ok (name, oset o "offset" (VInt (index_final - index_original))).
Lemma adjust_eq : forall removed final original d, adjust_offsets removed final original d =
  let! adjusted := mapM (adj1 removed (survivors removed original) (survivors removed final)) d in
  Ok (filter (fun o => negb (match ostr o "slot" with Some s => smem s removed | None => false end) &&
                       negb (py_eq (oget o "offset") (VInt 0)))%bool (map snd adjusted)).
Proof. reflexivity. Qed.
Lemma adjust_moves : forall removed final original d l,
  (forall s o, In (s, o) d -> named o s) ->
  adjust_offsets removed final original d = Ok l ->
  moves_of l (flat_map (new_moves removed (survivors removed original) (survivors removed final)) (dkeys d)).
Proof.
  intros removed final original d l Hd E. unfold adjust_offsets in E. apply bind_ok in E as (adj & E & El).
  injection El as <-. revert adj E. fold (survivors removed original). fold (survivors removed final).
  set (kn := survivors removed original). set (kf := survivors removed final).
  induction d as [ | [s o] d IH]; intros adj E.
  - injection E as <-. constructor.
  - cbn [mapM] in E. apply bind_ok in E as (kv & Ek & E). apply bind_ok in E as (adj' & Ea & E). injection E as <-.
    specialize (IH (fun s o H => Hd s o (or_intror H)) adj' Ea). specialize (Hd s o (or_introl eq_refl)).
    change (dkeys ((s, o) :: d)) with (s :: dkeys d). cbn [flat_map map filter]. unfold new_moves at 1.
    destruct (smem s removed) eqn:Er.
    + injection Ek as <-. cbn [snd]. rewrite (proj2 (ostr_named o s) Hd), Er. cbn [negb andb]. exact IH.
    + apply bind_ok in Ek as (i & Ei & Ek). apply bind_ok in Ek as (j & Ej & Ek). injection Ek as <-. rewrite Ei, Ej. cbn [snd].
      assert (Hn : named (oset o "offset" (VInt (j - i))) s) by (unfold named; rewrite oget_oset; exact Hd).
      rewrite (proj2 (ostr_named _ s) Hn), Er. rewrite oget_oset. rewrite seqb_refl. cbn [negb andb].
      assert (Q : py_eq (VInt (j - i)) (VInt 0) = Z.eqb (j - i) 0) by reflexivity. rewrite Q.
      destruct (Z.eqb (j - i) 0); cbn [negb app]; [exact IH | ]. constructor; [ | exact IH]. split; [exact Hn | ].
      left. rewrite oget_oset, seqb_refl. auto.
Qed.
Lemma in_survivors : forall r l x, In x (survivors r l) <-> In x l /\ ~ In x r.
Proof. intros. unfold survivors. rewrite filter_In, negb_true_iff, smem_nin. tauto. Qed.
Lemma NoDup_survivors : forall r l, NoDup l -> NoDup (survivors r l).
Proof. intros. apply NoDup_filter. auto. Qed.
Lemma Permutation_filter : forall A (f : A -> bool) l l', Permutation l l' -> Permutation (filter f l) (filter f l').
Proof.
  intros A f l l' H. induction H; simpl; auto.
  - destruct (f x); auto.
  - destruct (f x); destruct (f y); auto. apply perm_swap.
  - etransitivity; eauto.
Qed.

Lemma in_new_moves : forall removed names final keys s z, NoDup names -> Permutation final names ->
  (In (s, z) (flat_map (new_moves removed (survivors removed names) (survivors removed final)) keys) <->
   In s keys /\ ~ In s removed /\ z <> 0%Z /\
   exists i j, nth_error (survivors removed names) i = Some s /\ nth_error (survivors removed final) j = Some s /\
     z = (Z.of_nat j - Z.of_nat i)%Z).
Proof.
  intros removed names final keys s z N P. rewrite in_flat_map.
  assert (K : forall x, In (s, z) (new_moves removed (survivors removed names) (survivors removed final) x) <->
    x = s /\ ~ In s removed /\ z <> 0%Z /\
   exists i j, nth_error (survivors removed names) i = Some s /\ nth_error (survivors removed final) j = Some s /\
     z = (Z.of_nat j - Z.of_nat i)%Z).
  { intros x. unfold new_moves. destruct (smem x removed) eqn:Er.
    - apply smem_in in Er. split; [intros [] | ]. intros (-> & H & _). contradiction.
    - apply smem_nin in Er.
      assert (Nn : NoDup (survivors removed names)) by (apply NoDup_survivors; auto).
      assert (Nf : NoDup (survivors removed final)).
      { apply NoDup_survivors. eapply Permutation_NoDup; [symmetry; eauto | auto]. }
      destruct (in_dec string_dec x (survivors removed names)) as [Hi | Hi].
      + assert (Hf : In x (survivors removed final)).
        { apply in_survivors in Hi as [Hi _]. apply in_survivors. split; auto. eapply Permutation_in; [symmetry; eauto | auto]. }
        destruct (py_index_in _ _ Hi) as [i Ei]. destruct (py_index_in _ _ Hf) as [j Ej]. rewrite Ei, Ej.
        apply py_index_ok in Ei as (i' & -> & Ei). apply py_index_ok in Ej as (j' & -> & Ej).
        destruct (Z.eqb_spec (Z.of_nat j' - Z.of_nat i') 0) as [E0 | E0].
        * split; [intros [] | ]. intros (-> & _ & Hz & a & b & Ha & Hb & ->). destruct Hz.
          rewrite (nth_NoDup _ a i' s Nn Ha Ei), (nth_NoDup _ b j' s Nf Hb Ej). auto.
        * split.
          -- intros [E | []]. injection E as -> <-. repeat split; auto. exists i', j'. auto.
          -- intros (-> & _ & Hz & a & b & Ha & Hb & ->). left.
             rewrite (nth_NoDup _ a i' s Nn Ha Ei), (nth_NoDup _ b j' s Nf Hb Ej). auto.
      + rewrite (py_index_nin _ _ Hi). split; [intros [] | ]. intros (-> & _ & _ & a & b & Ha & _). destruct Hi.
        eapply nth_error_In; eauto. }
  split.
  - intros (x & Hx & H). apply K in H as (-> & H). auto.
  - intros (Hs & H). exists s. split; auto. apply K. auto.
Qed.
Lemma new_moves_NoDup : forall r kn kf keys, NoDup keys -> NoDup (map fst (flat_map (new_moves r kn kf) keys)).
Proof.
  intros r kn kf keys N. induction N as [ | k keys H N IH]; simpl; [constructor | ].
  rewrite map_app. apply NoDup_app_intro; auto.
  - unfold new_moves. destruct (smem k r); [constructor | ]. destruct (py_index kn k); [ | constructor].
    destruct (py_index kf k); [ | constructor]. destruct (_ =? 0)%Z; simpl; repeat constructor. auto.
  - assert (K : forall x y, In x (map fst (new_moves r kn kf y)) -> x = y).
    { intros x y. unfold new_moves. destruct (smem y r); [intros [] | ]. destruct (py_index kn y); [ | intros []].
      destruct (py_index kf y); [ | intros []]. destruct (_ =? 0)%Z; simpl; [intros [] | ]. intros [<- | []]; auto. }
    intros x H1 H2. apply K in H1. subst x. apply in_map_iff in H2 as ([k' z] & E & H2). simpl in E. subst k'.
    apply in_flat_map in H2 as (k' & Hk & H2). apply (in_map fst) in H2. apply K in H2. simpl in H2. congruence.
Qed.
Lemma new_moves_valid : forall removed names final keys, NoDup names -> Permutation final names -> NoDup keys ->
  valid_moves (survivors removed names)
    (flat_map (new_moves removed (survivors removed names) (survivors removed final)) keys).
Proof.
  intros removed names final keys N P Nk.
  assert (Nn : NoDup (survivors removed names)) by (apply NoDup_survivors; auto).
  split; [apply new_moves_NoDup; auto | split].
  - intros s z H. apply in_new_moves in H as (_ & _ & _ & i & j & Hi & Hj & ->); auto. exists i, j. repeat split; auto; [lia | ].
    assert (L : length (survivors removed final) = length (survivors removed names))
      by (apply Permutation_length, Permutation_filter; auto).
    rewrite <- L. apply nth_error_Some. congruence.
  - intros s z i s' z' i' H H' Hi Hi' E. apply in_new_moves in H as (_ & _ & _ & a & b & Ha & Hb & ->); auto.
    apply in_new_moves in H' as (_ & _ & _ & a' & b' & Ha' & Hb' & ->); auto.
    rewrite (nth_NoDup _ i a s Nn Hi Ha), (nth_NoDup _ i' a' s' Nn Hi' Ha') in E.
    assert (b = b') by lia. congruence.
Qed.

(** ** remove_offsets_with_ids *)
Lemma remove_offsets_ok : forall removed names d d', NoDup names ->
  remove_offsets_with_ids removed names d = (d', Ok tt) ->
  exists slots final, offsets_by_slot (do_offsets d) = Ok slots /\ reorder_slots_with_offset slots names = Ok final /\
    Permutation final names /\ NoDup (dkeys slots) /\ do_time d' = do_time d /\
    moves_of (do_offsets d')
      (flat_map (new_moves removed (survivors removed names) (survivors removed final)) (dkeys slots)).
Proof.
  intros removed names d d' N E. unfold remove_offsets_with_ids in E.
  destruct (let! slot_offsets := offsets_by_slot (do_offsets d) in _) as [l | e] eqn:El; [ | discriminate]. injection E as <-.
  apply bind_ok in El as (slots & Es & El). apply bind_ok in El as (final & Ef & El). exists slots, final.
  destruct (forallb has_slot (do_offsets d)); [ | discriminate]. apply offsets_by_slot_ok in Es as K. destruct K as (K1 & K2 & K3).
  split; [auto | split; [auto | split; [eapply reorder_perm; eauto | split; [auto | split; [auto | ]]]]].
  eapply adjust_moves; eauto. intros s o H. apply K2. apply in_dget; auto.
Qed.

Lemma moves_of_unique : forall l ms ms', moves_of l ms -> moves_of l ms' -> ms = ms'.
Proof.
  intros l ms ms' H. revert ms'. induction H as [ | o m l ms Ho H IH]; intros ms' H'; inversion H' as [ | ? m' ? ms2 Ho' H2]; subst; auto.
  f_equal; auto. destruct m as [s z], m' as [s' z']. destruct Ho as [A B], Ho' as [A' B']. simpl in *. rewrite A in A'. injection A' as <-.
  f_equal. apply as_int_value in B, B'. congruence.
Qed.

Lemma remove_offsets_in_range : forall removed names d d', NoDup names ->
  remove_offsets_with_ids removed names d = (d', Ok tt) ->
  do_time d' = do_time d /\
  exists ms, moves_of (do_offsets d') ms /\ valid_moves (survivors removed names) ms /\
    forall s z, In (s, z) ms -> In s names /\ ~ In s removed /\ z <> 0%Z.
Proof.
  intros removed names d d' N E. destruct (remove_offsets_ok _ _ _ _ N E) as (slots & final & Es & Ef & P & Nk & Ht & M).
  split; auto. eexists. split; [exact M | ]. split; [apply new_moves_valid; auto | ].
  intros s z H. apply in_new_moves in H as (_ & Hr & Hz & i & j & Hi & _); auto. apply nth_error_In, in_survivors in Hi. tauto.
Qed.

Lemma remove_offsets_when : forall removed names d, NoDup names ->
  (forall o, In o (do_offsets d) -> exists m, offset_of o m) ->
  ((exists d', remove_offsets_with_ids removed names d = (d', Ok tt)) <->
   (forall o s, In o (do_offsets d) -> oget o "slot" = VStr s -> In s names \/ In s removed)) /\
  (forall d' e, remove_offsets_with_ids removed names d = (d', Err e) -> d' = d /\ exists w, e = EValue w).
Proof.
  intros removed names d N Hi. unfold remove_offsets_with_ids.
  destruct (offsets_by_slot_total (do_offsets d)) as [slots Es].
  rewrite (proj2 (has_slots (do_offsets d))) by (intros o Ho; destruct (Hi o Ho) as ([s z] & H & _); exists s; auto).
  apply offsets_by_slot_ok in Es as K. destruct K as (K1 & K2 & K3). rewrite Es. cbn [bind].
  unfold reorder_slots_with_offset. destruct (operations_total slots names 0) as [ops Eo].
  { intros s o _ H. destruct (K2 s o H) as [Ho _]. destruct (Hi o Ho) as ([s' z] & _ & H'). exists z. apply as_int_value. auto. }
  rewrite Eo. cbn [bind]. set (final := fold_left _ _ _).
  assert (P : Permutation final names).
  { apply (reorder_perm slots). unfold reorder_slots_with_offset. rewrite Eo. reflexivity. }
  clearbody final. rewrite adjust_eq. set (f := adj1 removed (survivors removed names) (survivors removed final)).
  assert (Q : forall s o, In (s, o) slots -> (In s names \/ In s removed -> exists r, f (s, o) = Ok r) /\
              (~ (In s names \/ In s removed) -> exists w, f (s, o) = Err (EValue w))).
  { intros s o _. unfold f, adj1. destruct (smem s removed) eqn:Er.
    - apply smem_in in Er. split; [eauto | tauto].
    - apply smem_nin in Er. split.
      + intros [H | H]; [ | contradiction]. destruct (py_index_in (survivors removed names) s) as [i ->]; [apply in_survivors; auto | ].
        destruct (py_index_in (survivors removed final) s) as [j ->]; [ | simpl; eauto].
        apply in_survivors. split; auto. eapply Permutation_in; [symmetry; eauto | auto].
      + intros H. rewrite py_index_nin; [simpl; eauto | ]. rewrite in_survivors. tauto. }
  assert (R : (exists r, mapM f slots = Ok r) /\ (forall s, In s (dkeys slots) -> In s names \/ In s removed) \/
              (exists w, mapM f slots = Err (EValue w)) /\ exists s, In s (dkeys slots) /\ ~ (In s names \/ In s removed)).
  { clear - Q. induction slots as [ | [s o] slots IH]; [left; split; [simpl; eauto | intros s []] | ].
    destruct (Q s o (or_introl eq_refl)) as [Q1 Q2]. cbn [mapM].
    assert (D : In s names \/ In s removed \/ ~ (In s names \/ In s removed)).
    { destruct (in_dec string_dec s names); auto. destruct (in_dec string_dec s removed); tauto. }
    apply or_assoc in D. destruct D as [D | D].
    - destruct (Q1 D) as [r ->]. cbn [bind]. destruct IH as [[[l ->] H] | [[w ->] [x Hx]]].
      + intros; apply Q; right; auto.
      + left. split; [simpl; eauto | ]. intros x [<- | Hx]; auto.
      + right. split; [simpl; eauto | ]. exists x. simpl. tauto.
    - destruct (Q2 D) as [w ->]. right. split; [simpl; eauto | ]. exists s. simpl. tauto. }
  assert (T : (forall s, In s (dkeys slots) -> In s names \/ In s removed) <->
              (forall o s, In o (do_offsets d) -> oget o "slot" = VStr s -> In s names \/ In s removed)).
  { split.
    - intros H o s Ho Hs. exact (H s (K3 o s Ho Hs)).
    - intros H s Hs. apply in_keys_dget in Hs as [o Hs]. destruct (K2 s o Hs) as [Ho Hn]. eauto. }
  clearbody f. rewrite <- T. destruct R as [[[r ->] H] | [[w ->] [s [Hs Hn]]]]; cbn [bind].
  - split; [split; eauto | ]. intros d' e E. discriminate.
  - split.
    + split; [intros [d' E]; discriminate | ]. intros H. destruct Hn. auto.
    + intros d' e E. injection E as <- <-. eauto.
Qed.

(** ** Is the draw order of the survivors kept? *)
Lemma survivors_listed_place : forall removed names ms l slots d d' final, NoDup names -> moves_of (do_offsets d) ms ->
  valid_moves names ms -> draw_order_of names ms l ->
  offsets_by_slot (do_offsets d) = Ok slots -> reorder_slots_with_offset slots names = Ok final ->
  remove_offsets_with_ids removed names d = (d', Ok tt) -> final = l /\ dkeys slots = map fst ms.
Proof.
  intros removed names ms l slots d d' final N M V D Es Ef E.
  destruct (reorder_valid _ _ _ N M V) as (slots' & r & Es' & Hs & Er & Dr). rewrite Es in Es'. injection Es' as <-.
  rewrite Ef in Er. injection Er as <-. split; [eapply draw_order_unique; eauto | ]. subst slots. apply combine_keys. auto.
Qed.

Lemma remove_offsets_order : forall removed names d d' ms ms' l, NoDup names ->
  moves_of (do_offsets d) ms -> valid_moves names ms -> draw_order_of names ms l ->
  remove_offsets_with_ids removed names d = (d', Ok tt) -> moves_of (do_offsets d') ms' ->
  (forall s z, In (s, z) ms' <-> In s (map fst ms) /\ ~ In s removed /\ z <> 0%Z /\
     exists i j, nth_error (survivors removed names) i = Some s /\ nth_error (survivors removed l) j = Some s /\
       z = (Z.of_nat j - Z.of_nat i)%Z) /\
  (draw_order_of (survivors removed names) ms' (survivors removed l) <->
   filter (unlisted ms') (survivors removed l) = filter (unlisted ms') (survivors removed names)).
Proof.
  intros removed names d d' ms ms' l N M V D E M'.
  destruct (remove_offsets_ok _ _ _ _ N E) as (slots & final & Es & Ef & P & Nk & Ht & Mn).
  destruct (survivors_listed_place _ _ _ _ _ _ _ _ N M V D Es Ef E) as [-> Hk].
  rewrite Hk in Mn. pose proof (moves_of_unique _ _ _ M' Mn) as Em.
  assert (C : forall s z, In (s, z) ms' <-> In s (map fst ms) /\ ~ In s removed /\ z <> 0%Z /\
     exists i j, nth_error (survivors removed names) i = Some s /\ nth_error (survivors removed l) j = Some s /\
       z = (Z.of_nat j - Z.of_nat i)%Z).
  { intros s z. rewrite Em. apply in_new_moves; auto. }
  split; auto. split; [intros (_ & _ & H); auto | ]. intros H. split; [ | split; auto].
  - apply Permutation_filter. auto.
  - intros s z i Hm Hi. apply C in Hm as (_ & _ & _ & a & b & Ha & Hb & ->). exists b. split; auto.
    rewrite (nth_NoDup _ i a s (NoDup_survivors removed names N) Hi Ha). lia.
Qed.

Lemma remove_offsets_no_fixed : forall removed names d d' ms ms' l, NoDup names ->
  moves_of (do_offsets d) ms -> valid_moves names ms -> draw_order_of names ms l ->
  remove_offsets_with_ids removed names d = (d', Ok tt) -> moves_of (do_offsets d') ms' ->
  (forall s i, In s (map fst ms) -> nth_error (survivors removed names) i = Some s ->
     nth_error (survivors removed l) i <> Some s) ->
  draw_order_of (survivors removed names) ms' (survivors removed l).
Proof.
  intros removed names d d' ms ms' l N M V D E M' F.
  destruct (remove_offsets_order removed names d d' ms ms' l N M V D E M') as [C I]. apply I. clear I.
  destruct D as (P & _ & D).
  assert (U : forall L x, (forall y, In y L -> In y names) -> In x (survivors removed L) -> unlisted ms' x = unlisted ms x).
  { intros L x HL Hx. apply in_survivors in Hx as [Hx Hr]. apply HL in Hx. unfold unlisted. f_equal.
    destruct (smem x (map fst ms)) eqn:E1.
    - apply smem_in in E1. apply smem_in.
      assert (Hn : In x (survivors removed names)) by (apply in_survivors; auto).
      assert (Hl : In x (survivors removed l)).
      { apply in_survivors. split; auto. eapply Permutation_in; [symmetry; eauto | auto]. }
      apply In_nth_error in Hn as [i Hi]. apply In_nth_error in Hl as [j Hj]. apply in_map_iff.
      exists (x, (Z.of_nat j - Z.of_nat i)%Z). split; auto. apply C. repeat split; auto.
      + intros Z. assert (i = j) by lia. subst. eapply F; eauto.
      + exists i, j. auto.
    - apply smem_nin in E1. apply smem_nin. intros H. apply E1. apply in_map_iff in H as ([s z] & Q & H). simpl in Q. subst s.
      apply C in H. tauto. }
  rewrite (filter_ext_in (unlisted ms') (unlisted ms) (survivors removed l)).
  2: { intros x. apply U. intros y. apply Permutation_in. auto. }
  rewrite (filter_ext_in (unlisted ms') (unlisted ms) (survivors removed names)).
  2: { intros x. apply U. auto. }
  unfold survivors. rewrite filter_comm, D, filter_comm. auto.
Qed.

Lemma remove_offsets_order_iff : forall removed names d d' ms ms' l, NoDup names ->
  moves_of (do_offsets d) ms -> valid_moves names ms -> draw_order_of names ms l ->
  remove_offsets_with_ids removed names d = (d', Ok tt) -> moves_of (do_offsets d') ms' ->
  (draw_order_of (survivors removed names) ms' (survivors removed l) <->
   filter (unlisted ms') (survivors removed l) = filter (unlisted ms') (survivors removed names)).
Proof. intros removed names d d' ms ms' l N M V D E M'. exact (proj2 (remove_offsets_order _ _ _ _ _ _ _ N M V D E M')). Qed.
Lemma reorder_spine_rule : forall l ms names, NoDup names -> moves_of l ms -> valid_moves names ms ->
  exists d r, offsets_by_slot l = Ok d /\ reorder_slots_with_offset d names = Ok r /\ draw_order_of names ms r /\
    forall r', draw_order_of names ms r' -> r' = r.
Proof.
  intros l ms names N M V. destruct (reorder_valid _ _ _ N M V) as (d & r & E1 & _ & E2 & D). exists d, r.
  repeat (split; [assumption | ]). intros r' D'. eapply draw_order_unique; eauto.
Qed.
