(** Proofs about [to_json_data] of any graph. *)
From Verif Require Import PyBase PyFacts Json Graph SpecGraph SpineGraph DrawFacts GraphApi SpecGraphJson.
From Coq Require Import Sorted Permutation.
Open Scope string_scope.

Lemma insert_stable : forall (x : ndata) l k, filter (fun d => Z.eqb (nd_idx d) k) (insert_by nd_idx x l) = filter (fun d => Z.eqb (nd_idx d) k) (x :: l).
Proof.
  intros x l k. induction l as [ | y l IH]; [reflexivity | ]. cbn [insert_by]. destruct (Z.leb_spec (nd_idx x) (nd_idx y)) as [H | H]; [reflexivity | ].
  cbn [filter] in *. rewrite IH. destruct (Z.eqb_spec (nd_idx y) k), (Z.eqb_spec (nd_idx x) k); try reflexivity. lia.
Qed.
Lemma sort_in_order : forall l, put_in_order l (sort_by nd_idx l).
Proof.
  intros l. split; [symmetry; apply sort_by_perm | ]. split; [apply (sort_by_sorted nd_idx) | ]. intros k. induction l as [ | x l IH]; [reflexivity | ].
  cbn [sort_by]. rewrite insert_stable. cbn [filter]. rewrite IH. reflexivity.
Qed.
Lemma order_one : forall l a b, put_in_order l a -> put_in_order l b -> a = b.
Proof.
  assert (Sub : forall (a b : list ndata), StronglySorted (fun x y => (nd_idx x <= nd_idx y)%Z) a -> StronglySorted (fun x y => (nd_idx x <= nd_idx y)%Z) b ->
    (forall k, filter (fun d => Z.eqb (nd_idx d) k) a = filter (fun d => Z.eqb (nd_idx d) k) b) -> a = b).
  { intros a. induction a as [ | x a IH]; intros b Sa Sb F.
    - destruct b as [ | y b]; auto. specialize (F (nd_idx y)). cbn [filter] in F. rewrite Z.eqb_refl in F. discriminate.
    - destruct b as [ | y b]; [specialize (F (nd_idx x)); cbn [filter] in F; rewrite Z.eqb_refl in F; discriminate | ].
      inversion Sa as [ | ? ? Sa' Fa]; inversion Sb as [ | ? ? Sb' Fb]; subst. rewrite Forall_forall in Fa, Fb.
      assert (Le : forall (u v : list ndata) x y, (forall z, In z v -> (nd_idx y <= nd_idx z)%Z) -> filter (fun d => Z.eqb (nd_idx d) (nd_idx x)) (x :: u) = filter (fun d => Z.eqb (nd_idx d) (nd_idx x)) (y :: v) -> (nd_idx y <= nd_idx x)%Z).
      { intros u v x' y' Hv E. assert (I : In x' (filter (fun d => (nd_idx d =? nd_idx x')%Z) (y' :: v))) by (rewrite <- E; cbn [filter]; rewrite Z.eqb_refl; left; auto).
        apply filter_In in I as [[<- | I] _]; [lia | auto]. }
      assert (E : nd_idx x = nd_idx y).
      { pose proof (Le a b x y Fb (F (nd_idx x))). pose proof (Le b a y x Fa (eq_sym (F (nd_idx y)))). lia. }
      assert (X : x = y). { pose proof (F (nd_idx x)) as K. cbn [filter] in K. rewrite <- E, Z.eqb_refl in K. congruence. }
      subst y. f_equal. apply IH; auto. intros k. specialize (F k). cbn [filter] in F. destruct (Z.eqb (nd_idx x) k); congruence. }
  intros l a b (_ & Sa & Fa) (_ & Sb & Fb). apply Sub; auto. intros k. rewrite Fa, Fb. reflexivity.
Qed.
Lemma picked_of : forall t (ns : list (node ndata)), (forall n, In n ns -> n_data n <> None) ->
  picked t ns (flat_map (fun n => if ntype_eqb (n_type n) (NTStr t) then match n_data n with Some d => [d] | None => [] end else []) ns).
Proof.
  intros t ns H. induction ns as [ | n ns IH]; cbn [flat_map]; [constructor | ]. destruct (ntype_eqb (n_type n) (NTStr t)) eqn:E.
  - apply ntype_eqb_eq in E. destruct (n_data n) as [d | ] eqn:Ed; [ | destruct (H n (or_introl eq_refl) Ed)]. apply pk_take; auto. apply IH. intros m I. apply H. right. auto.
  - apply ntype_eqb_neq in E. apply pk_skip; auto. apply IH. intros m I. apply H. right. auto.
Qed.
Lemma picked_one : forall t ns l l', picked t ns l -> picked t ns l' -> l = l'.
Proof.
  intros t ns l l' H. revert l'. induction H as [ | n d ns l T D H IH | n ns l T H IH]; intros l' K; inversion K; subst; auto; try congruence; try contradiction.
  f_equal; [congruence | auto].
Qed.
Lemma written_exact : forall t ns r, (forall n, In n ns -> n_data n <> None) ->
  (r = sorted_data (flat_map (fun n : node ndata => if ntype_eqb (n_type n) (NTStr t) then match n_data n with Some d => [d] | None => [] end else []) ns) <-> written_for t ns r).
Proof.
  intros t ns r D. pose proof (picked_of t ns D) as P. split.
  - intros ->. exists (flat_map (fun n => if ntype_eqb (n_type n) (NTStr t) then match n_data n with Some d => [d] | None => [] end else []) ns). eexists. split; [exact P | ]. split; [apply sort_in_order | reflexivity].
  - intros (l & l' & K & O & ->). rewrite (picked_one _ _ _ _ K P) in O. unfold sorted_data. f_equal. eapply order_one; [exact O | apply sort_in_order].
Qed.
Lemma nodes_are_vals : forall (g : sgraph) ns, NoDup (dkeys (g_nodes g)) -> nodes_are g ns -> ns = dvals (g_nodes g).
Proof.
  intros g ns N H. unfold nodes_are in H. unfold has_node, get_node in H. 
  assert (K : forall (d d0 : dict (node ndata)) ns, (forall k v, In (k, v) d0 -> dget k d = Some v) -> Forall2 (fun i n => Ok (dget i d) = Ok (Some n)) (dkeys d0) ns -> ns = dvals d0).
  { intros d d0. induction d0 as [ | [k v] d0 IH]; intros ms S F; cbn in F; inversion F; subst; auto. cbn. f_equal.
    - rewrite (S k v (or_introl eq_refl)) in H2. congruence.
    - apply IH; auto. intros k' v' I. apply S. right. auto. }
  apply (K (g_nodes g) (g_nodes g)); auto. intros k v I. apply in_dget; auto.
Qed.
Theorem any_graph_json : forall (g : sgraph) ns o, NoDup (dkeys (g_nodes g)) -> nodes_are g ns -> (forall n, In n ns -> n_data n <> None) ->
  (graph_to_json g = Ok o <-> (forall n, In n ns -> exists t, In t kinds /\ n_type n = NTStr t) /\
     written_for "SLOT" ns (gj_slots o) /\ written_for "BONE" ns (gj_bones o) /\ written_for "IK" ns (gj_ik o)).
Proof.
  intros g ns o N A D. pose proof (nodes_are_vals g ns N A) as E. unfold graph_to_json, nodes_of_type. rewrite <- E.
  rewrite <- (written_exact "SLOT"), <- (written_exact "BONE"), <- (written_exact "IK") by auto.
  assert (Kn : forallb (fun n => known_type (n_type n)) ns = true <-> (forall n, In n ns -> exists t, In t kinds /\ n_type n = NTStr t)).
  { rewrite forallb_forall. split; intros H n I; specialize (H n I).
    - unfold known_type in H. apply existsb_exists in H as (x & Hx & Ex). apply ntype_eqb_eq in Ex. apply in_map_iff in Hx as (t & <- & Ht). exists t. auto.
    - destruct H as (t & Ht & Et). unfold known_type. apply existsb_exists. exists (NTStr t). split; [apply in_map; exact Ht | apply ntype_eqb_eq; auto]. }
  destruct (forallb (fun n => known_type (n_type n)) ns) eqn:F.
  - split.
    + intros X. injection X as <-. cbn [gj_slots gj_bones gj_ik]. split; [apply Kn; auto | auto].
    + intros (_ & S & B & I). destruct o as [s b i]. cbn [gj_slots gj_bones gj_ik] in *. subst. reflexivity.
  - split; [discriminate | ]. intros (K & _). apply Kn in K. discriminate.
Qed.
Theorem other_kind : forall (g : sgraph) i n, NoDup (dkeys (g_nodes g)) -> has_node g i n -> (forall t, In t kinds -> n_type n <> NTStr t) -> exists w, graph_to_json g = Err (EKey w).
Proof.
  intros g i n N H K. unfold graph_to_json. destruct (forallb (fun n => known_type (n_type n)) (dvals (g_nodes g))) eqn:F; [ | eexists; reflexivity].
  exfalso. rewrite forallb_forall in F. unfold has_node, get_node in H. injection H as H. apply dget_some_in in H. specialize (F n). 
  assert (I : In n (dvals (g_nodes g))) by (unfold dvals; apply in_map_iff; exists (i, n); auto). specialize (F I). unfold known_type in F.
  apply existsb_exists in F as (x & Hx & Ex). apply ntype_eqb_eq in Ex. apply in_map_iff in Hx as (t & <- & Ht). apply (K t Ht). auto.
Qed.
