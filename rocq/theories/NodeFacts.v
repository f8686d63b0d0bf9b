(** Facts about nodes as values and about AnimationEraserResult. *)
From Verif Require Import PyBase Graph SpecGraph GraphFacts GraphApi SpineGraph Nodes.
Open Scope string_scope.

Lemma ntype_eqb_iff : forall a b, ntype_eqb a b = true <-> a = b.
Proof.
  intros [x | x] [y | y]; cbn [ntype_eqb]; try (split; discriminate).
  - rewrite Z.eqb_eq. split; congruence.
  - rewrite String.eqb_eq. split; congruence.
Qed.
Lemma ntype_eqb_refl : forall a, ntype_eqb a a = true.
Proof. intros a. apply ntype_eqb_iff. reflexivity. Qed.

(** ** nodes_erased *)
Lemma erased_get_set : forall t l r u, erased_get u (erased_set t l r) = if ntype_eqb u t then Some l else erased_get u r.
Proof.
  intros t l r u. induction r as [ | [t' l'] r IH]; cbn [erased_set erased_get]; [reflexivity | ].
  destruct (ntype_eqb t t') eqn:E; cbn [erased_get].
  - apply ntype_eqb_iff in E as ->. destruct (ntype_eqb u t'); reflexivity.
  - rewrite IH. destruct (ntype_eqb u t') eqn:E1; [ | reflexivity]. destruct (ntype_eqb u t) eqn:E2; [ | reflexivity].
    apply ntype_eqb_iff in E1 as ->. apply ntype_eqb_iff in E2 as ->. rewrite ntype_eqb_refl in E. discriminate.
Qed.
Section Erased.
  Context {D : Type}.
  Definition or_none (o : option (list string)) : list string := match o with Some l => l | None => [] end.
  Lemma save_get : forall r (n : node D) t, erased_get t (save_node_erased r n) =
    if ntype_eqb t (n_type n) then Some (add_new (n_id n) (or_none (erased_get t r))) else erased_get t r.
  Proof.
    intros r n t. unfold save_node_erased. rewrite erased_get_set. destruct (ntype_eqb t (n_type n)) eqn:E.
    - apply ntype_eqb_iff in E as ->. destruct (erased_get (n_type n) r) as [l | ] eqn:G; [rewrite G; reflexivity | ].
      rewrite erased_get_set, ntype_eqb_refl. reflexivity.
    - destruct (erased_get (n_type n) r); [reflexivity | ]. rewrite erased_get_set, E. reflexivity.
  Qed.
  Definition saved (nodes : list (node D)) : erased := fold_left save_node_erased nodes new_erased.
  Lemma saved_get : forall nodes t,
    (erased_get t (saved nodes) = None <-> forall n, In n nodes -> n_type n <> t) /\
    NoDup (or_none (erased_get t (saved nodes))) /\
    forall i, In i (or_none (erased_get t (saved nodes))) <-> exists n, In n nodes /\ n_type n = t /\ n_id n = i.
  Proof.
    intros nodes t. induction nodes as [ | n nodes IH] using rev_ind; unfold saved.
    - cbn. split; [split; [intros _ ? [] | reflexivity] | ]. split; [constructor | ]. intros i. split; [intros [] | intros (? & [] & _)].
    - rewrite fold_left_app. cbn [fold_left]. fold (saved nodes). rewrite save_get. destruct IH as (I1 & I2 & I3). destruct (ntype_eqb t (n_type n)) eqn:E.
      + apply ntype_eqb_iff in E as ->. cbn [or_none]. split; [ | split].
        * split; [discriminate | ]. intros H. exfalso. apply (H n); [apply in_or_app; right; left; reflexivity | reflexivity].
        * apply NoDup_add_new. exact I2.
        * intros i. rewrite in_add_new, I3. split.
          -- intros [-> | (m & H1 & H2)]; [exists n; split; [apply in_or_app; right; left; reflexivity | auto] | exists m; split; [apply in_or_app; auto | exact H2]].
          -- intros (m & H1 & H2 & <-). apply in_app_or in H1 as [H1 | [<- | []]]; [right; exists m; auto | left; reflexivity].
      + assert (NE : n_type n <> t) by (intros <-; rewrite ntype_eqb_refl in E; discriminate). split; [ | split].
        * rewrite I1. split; intros H m Hm.
          -- apply in_app_or in Hm as [Hm | [<- | []]]; auto.
          -- apply H. apply in_or_app. auto.
        * exact I2.
        * intros i. rewrite I3. split; intros (m & H1 & H2 & H3).
          -- exists m. split; [apply in_or_app; auto | auto].
          -- apply in_app_or in H1 as [H1 | [<- | []]]; [exists m; auto | contradiction].
  Qed.
End Erased.

(** ** Nodes as values *)
Section Values.
  Context {D : Type}.
  Lemma nodes_equal : forall (g : graph D) i j n m, reachable g -> has_node g i n -> has_node g j m ->
    (node_eq n (Some m) = Ok true <-> i = j) /\ (node_eq n (Some m) = Ok false <-> i <> j).
  Proof.
    intros g i j n m R Hn Hm. pose proof (reachable_wf g R) as W. injection Hn as Hn. injection Hm as Hm.
    cbn [node_eq]. rewrite (wf_id _ _ _ W Hn), (wf_id _ _ _ W Hm). destruct (String.eqb_spec i j) as [E | E]; split; split; intros; congruence.
  Qed.
  Lemma degrees : forall (g : graph D) i n, reachable g -> has_node g i n ->
    exists ps cs, NoDup ps /\ NoDup cs /\ (forall p, In p ps <-> edge g p i) /\ (forall c, In c cs <-> edge g i c) /\
      num_parents n = length ps /\ num_children n = length cs.
  Proof.
    intros g i n R Hn. pose proof (reachable_wf g R) as (W1 & W2 & W3 & W4). pose proof Hn as Hn'. injection Hn as Hn.
    destruct (W2 _ _ Hn) as (_ & N1 & N2). exists (n_parents n), (n_children n). split; [exact N2 | ]. split; [exact N1 | ]. split; [ | split; [ | split; reflexivity]].
    - intros p. specialize (W3 p i). unfold children_of, parents_of in W3. rewrite Hn in W3. rewrite <- W3. unfold edge, has_node, get_node. split.
      + destruct (dget p (g_nodes g)) as [m | ]; [ | intros []]. intros H. exists m. auto.
      + intros (m & Hm & H). injection Hm as ->. exact H.
    - intros c. split; [intros H; exists n; auto | ]. intros (m & Hm & H). unfold has_node in *. rewrite Hn' in Hm. injection Hm as <-. exact H.
  Qed.
End Values.
