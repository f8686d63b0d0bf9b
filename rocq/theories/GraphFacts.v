(** Facts about Graph.v. *)
From Verif Require Import PyBase PyFacts VersionFacts Graph SpecGraph.
Open Scope string_scope.

Lemma in_drop : forall x y l, In y (drop x l) <-> y <> x /\ In y l.
Proof.
  intros. unfold drop. rewrite filter_In, negb_true_iff, seqb_neq. split; intros [? ?]; split; auto.
Qed.
Lemma NoDup_drop : forall x l, NoDup l -> NoDup (drop x l).
Proof. intros. apply NoDup_filter. auto. Qed.
Lemma in_add_new : forall x y l, In y (add_new x l) <-> y = x \/ In y l.
Proof.
  intros. unfold add_new. destruct (smem x l) eqn:E.
  - apply smem_in in E. split; auto. intros [-> | H]; auto.
  - rewrite in_app_iff. simpl. split; intuition.
Qed.
Lemma NoDup_add_new : forall x l, NoDup l -> NoDup (add_new x l).
Proof.
  intros x l H. unfold add_new. destruct (smem x l) eqn:E; auto. apply smem_nin in E.
  apply NoDup_app_intro; auto.
  - constructor; auto. constructor.
  - intros y Hy [<- | []]. auto.
Qed.

Section GraphFacts.
  Context {D : Type}.
  Implicit Types (g : graph D) (n : node D).

  (** ** generate_unique_id *)
  Lemma first_free_spec : forall fuel (ns : dict (node D)) (n m : N),
    first_free fuel ns n = Some m ->
    (n <= m)%N /\ ~ In (dec m) (dkeys ns) /\ (forall k, (n <= k < m)%N -> In (dec k) (dkeys ns)).
  Proof.
    induction fuel as [ | fuel IH]; intros ns n m H; simpl in H; destruct (dmem (dec n) ns) eqn:E.
    - discriminate.
    - inversion H; subst. apply dmem_nin in E. repeat split; auto; lia.
    - apply IH in H as [H1 [H2 H3]]. apply dmem_in in E. repeat split; auto; try lia.
      intros k Hk. destruct (N.eq_dec k n) as [-> | Hn]; auto. apply H3. lia.
    - inversion H; subst. apply dmem_nin in E. repeat split; auto; lia.
  Qed.
  Lemma first_free_none : forall fuel (ns : dict (node D)) (n : N),
    first_free fuel ns n = None -> forall k, (n <= k <= n + N.of_nat fuel)%N -> In (dec k) (dkeys ns).
  Proof.
    induction fuel as [ | fuel IH]; intros ns n H k Hk; simpl in H; destruct (dmem (dec n) ns) eqn:E; try discriminate.
    - apply dmem_in in E. replace k with n by lia. auto.
    - apply dmem_in in E. destruct (N.eq_dec k n) as [-> | Hn]; auto. apply IH with (k := k) in H; auto. lia.
  Qed.
  Lemma first_free_total : forall (ns : dict (node D)) (n : N), first_free (length ns) ns n <> None.
  Proof.
    intros ns n H. pose proof (first_free_none _ _ _ H) as Hk.
    set (l := map (fun i => dec (n + N.of_nat i)) (seq 0 (S (length ns)))).
    assert (Hn : NoDup l).
    { apply FinFun.Injective_map_NoDup; [ | apply seq_NoDup]. intros a b E. apply dec_inj in E. lia. }
    assert (Hi : incl l (dkeys ns)).
    { intros x Hx. apply in_map_iff in Hx as [i [<- Hi]]. apply in_seq in Hi. apply Hk. lia. }
    pose proof (NoDup_incl_length Hn Hi) as HL. unfold l, dkeys in HL. rewrite !map_length, seq_length in HL. lia.
  Qed.
  Lemma generate_spec : forall g, exists m,
    generate_unique_id g = (mkGraph m (g_counter g) (g_nodes g), Ok (dec m)) /\
    (g_gen g < m)%N /\ ~ In (dec m) (ids g).
  Proof.
    intros g. unfold generate_unique_id.
    destruct (first_free (length (g_nodes g)) (g_nodes g) (N.succ (g_gen g))) as [m | ] eqn:E.
    - apply first_free_spec in E as [E1 [E2 _]]. exists m. repeat split; auto. lia.
    - exfalso. eapply first_free_total; eauto.
  Qed.

  (** ** The invariant *)
  Definition wf g : Prop :=
    NoDup (ids g) /\
    (forall i n, dget i (g_nodes g) = Some n -> n_id n = i /\ NoDup (n_children n) /\ NoDup (n_parents n)) /\
    (forall p c, In c (children_of g p) <-> In p (parents_of g c)) /\
    (forall i, ~ In i (children_of g i)) /\
    (forall p c np nc, dget p (g_nodes g) = Some np -> dget c (g_nodes g) = Some nc ->
       In c (n_children np) -> allows np nc).

  Lemma wf_id : forall g i n, wf g -> dget i (g_nodes g) = Some n -> n_id n = i.
  Proof. intros g i n (_ & H & _) E. apply H in E. tauto. Qed.
  Lemma children_of_in : forall g p c, In c (children_of g p) -> In p (ids g).
  Proof.
    intros g p c H. unfold children_of in H. destruct (dget p (g_nodes g)) eqn:E; [ | destruct H].
    eapply dget_in_keys; eauto.
  Qed.
  Lemma parents_of_in : forall g p c, In p (parents_of g c) -> In c (ids g).
  Proof.
    intros g p c H. unfold parents_of in H. destruct (dget c (g_nodes g)) eqn:E; [ | destruct H].
    eapply dget_in_keys; eauto.
  Qed.
  Lemma wf_child_in : forall g p c, wf g -> In c (children_of g p) -> In c (ids g).
  Proof. intros g p c W H. apply W in H. eapply parents_of_in; eauto. Qed.
  Lemma wf_parent_in : forall g p c, wf g -> In p (parents_of g c) -> In p (ids g).
  Proof. intros g p c W H. apply W in H. eapply children_of_in; eauto. Qed.

  Lemma has_node_dget : forall g i n, has_node g i n <-> dget i (g_nodes g) = Some n.
  Proof. intros. unfold has_node, get_node. split; congruence. Qed.
  Lemma no_node_dget : forall g i, no_node g i <-> dget i (g_nodes g) = None.
  Proof. intros. unfold no_node, get_node. split; congruence. Qed.
  Lemma edge_children : forall g p c, edge g p c <-> In c (children_of g p).
  Proof.
    intros g p c. unfold edge, children_of. split.
    - intros [n [H Hi]]. apply has_node_dget in H. rewrite H. auto.
    - destruct (dget p (g_nodes g)) as [n | ] eqn:E; [ | intros []]. intros Hi. exists n. rewrite has_node_dget. auto.
  Qed.
  Lemma edge_up_parents : forall g p c, edge_up g p c <-> In p (parents_of g c).
  Proof.
    intros g p c. unfold edge_up, parents_of. split.
    - intros [n [H Hi]]. apply has_node_dget in H. rewrite H. auto.
    - destruct (dget c (g_nodes g)) as [n | ] eqn:E; [ | intros []]. intros Hi. exists n. rewrite has_node_dget. auto.
  Qed.

  Lemma wf_new : wf new_graph.
  Proof.
    unfold wf, ids, children_of, parents_of. simpl. repeat split; try tauto; try constructor; intros; try discriminate; auto.
    all: try (destruct H).
  Qed.

  (** Graphs whose nodes are the same nodes. *)
  Lemma wf_nodes : forall g g', g_nodes g = g_nodes g' -> wf g -> wf g'.
  Proof.
    intros g g' E (H1 & H2 & H3 & H4 & H5). unfold wf, ids, children_of, parents_of in *. rewrite <- E. auto.
  Qed.

  Lemma add_node_spec : forall fac g id data ty, exists m g1,
    g1 = mkGraph m (g_counter g) (g_nodes g) /\ (g_gen g < m)%N /\ ~ In (dec m) (ids g) /\
    add_node fac g id data ty =
      match id with
      | IdOther => (g1, Err WRONG_NODE_ID_TYPE)
      | _ =>
          let i := match id with IdStr s => s | _ => dec m end in
          if smem i (ids g) then (g1, Err (EValue "ids need to be unique"))
          else match fac ty with
               | None => (g1, Err (EUnmodelled "a factory that returns None"))
               | Some (t, forb) =>
                   let nd := mkNode i data t i (dec m) forb [] [] in
                   (mkGraph m (N.succ (g_counter g)) (g_nodes g ++ [(i, nd)])%list, Ok nd)
               end
      end.
  Proof.
    intros fac g id data ty. destruct (generate_spec g) as [m [E [Hm Hf]]].
    exists m, (mkGraph m (g_counter g) (g_nodes g)). repeat split; auto.
    unfold add_node. rewrite E. simpl g_nodes. simpl g_counter. simpl g_gen. destruct id as [ | s | ]; auto.
    - cbv zeta. rewrite (proj2 (smem_nin _ _) Hf). destruct (fac ty) as [[t forb] | ]; auto.
      rewrite dset_new by auto. auto.
    - cbv zeta. rewrite dmem_smem. fold (ids g). destruct (smem s (ids g)) eqn:Es; auto.
      destruct (fac ty) as [[t forb] | ]; auto. apply smem_nin in Es. rewrite dset_new by auto. auto.
  Qed.

  Lemma dget_app : forall A k (d1 d2 : dict A),
    dget k (d1 ++ d2)%list = match dget k d1 with Some v => Some v | None => dget k d2 end.
  Proof. intros A k d1 d2. induction d1 as [ | [x v] d1 IH]; simpl; auto. destruct (String.eqb k x); auto. Qed.

  Lemma wf_add : forall g m c i nd, wf g -> ~ In i (ids g) ->
    n_id nd = i -> n_children nd = [] -> n_parents nd = [] ->
    wf (mkGraph m c (g_nodes g ++ [(i, nd)])%list).
  Proof.
    intros g m c i nd W Hi Hid Hc Hp.
    pose proof W as (H1 & H2 & H3 & H4 & H5).
    assert (Hget : forall j, dget j (g_nodes g ++ [(i, nd)])%list =
                             if String.eqb j i then Some nd else dget j (g_nodes g)).
    { intros j. rewrite dget_app. simpl. eqb_cases j i; try subst j.
      - assert (dget i (g_nodes g) = None) as -> by (apply dget_none; auto). auto.
      - destruct (dget j (g_nodes g)); auto. }
    assert (Hch : forall j, children_of (mkGraph m c (g_nodes g ++ [(i, nd)])%list) j = children_of g j).
    { intros j. unfold children_of. simpl. rewrite Hget. eqb_cases j i; try subst j; auto.
      rewrite Hc. assert (dget i (g_nodes g) = None) as -> by (apply dget_none; auto). auto. }
    assert (Hpa : forall j, parents_of (mkGraph m c (g_nodes g ++ [(i, nd)])%list) j = parents_of g j).
    { intros j. unfold parents_of. simpl. rewrite Hget. eqb_cases j i; try subst j; auto.
      rewrite Hp. assert (dget i (g_nodes g) = None) as -> by (apply dget_none; auto). auto. }
    split; [ | split; [ | split; [ | split]]].
    - unfold ids, dkeys in *. simpl. rewrite map_app. apply NoDup_app_intro; auto.
      + simpl. constructor; auto. constructor.
      + simpl. intros x Hx [<- | []]. auto.
    - intros j n. simpl. rewrite Hget. eqb_cases j i; try subst j; intros Hn.
      + inversion Hn; subst n. rewrite Hc, Hp. split; [exact Hid | split; constructor].
      + apply H2; auto.
    - intros p q. rewrite Hch, Hpa. auto.
    - intros j. rewrite Hch. auto.
    - intros p q np nq. simpl. rewrite !Hget. intros Ep Eq Hin.
      assert (Hpi : p <> i).
      { intros ->. rewrite seqb_refl in Ep. inversion Ep; subst np. rewrite Hc in Hin. destruct Hin. }
      rewrite (proj2 (seqb_neq _ _) Hpi) in Ep.
      assert (Hqi : q <> i).
      { intros ->. apply Hi. eapply wf_child_in; eauto. unfold children_of. rewrite Ep. eauto. }
      rewrite (proj2 (seqb_neq _ _) Hqi) in Eq. eapply H5; eauto.
  Qed.

  Lemma wf_add_node : forall fac g id data ty, wf g -> wf (fst (add_node fac g id data ty)).
  Proof.
    intros fac g id data ty W. destruct (add_node_spec fac g id data ty) as (m & g1 & E1 & Hm & Hf & E).
    assert (W1 : wf g1) by (subst; eapply wf_nodes; [ | eauto]; auto).
    rewrite E. destruct id as [ | s | ]; auto; cbv zeta.
    - destruct (smem (dec m) (ids g)) eqn:Es; auto. destruct (fac ty) as [[t forb] | ]; auto. simpl.
      apply smem_nin in Es. apply wf_add; auto.
    - destruct (smem s (ids g)) eqn:Es; auto. destruct (fac ty) as [[t forb] | ]; auto. simpl.
      apply smem_nin in Es. apply wf_add; auto.
  Qed.

  (** ** add_edge *)
  (** The graph with the edge p -> c. *)
  Definition linked g p c np nc : graph D :=
    set_nodes g (dset c (with_parent nc p) (dset p (with_child np c) (g_nodes g))).

  Lemma add_edge_spec : forall g p c, wf g ->
    add_edge g (IdStr p) (IdStr c) =
    match dget p (g_nodes g), dget c (g_nodes g) with
    | Some np, Some nc =>
        if existsb (ntype_eqb (n_type nc)) (n_forbidden np)
        then (g, Err (EType "The type of the child is forbidden for this node"))
        else if String.eqb c p then (g, Err (EValue "A node cannot be its own child"))
        else (linked g p c np nc, Ok tt)
    | Some np, None => (g, Err (EType "child needs to be a node"))
    | None, Some nc => (g, Err (EType "parent needs to be a node"))
    | None, None => (g, Err (EAttr "'NoneType' object has no attribute '_add_parent'"))
    end.
  Proof.
    intros g p c W. unfold add_edge. simpl get_node. cbv iota beta.
    destruct (dget p (g_nodes g)) as [np | ] eqn:Ep; destruct (dget c (g_nodes g)) as [nc | ] eqn:Ec; simpl; auto.
    pose proof (wf_id _ _ _ W Ep) as Ip. pose proof (wf_id _ _ _ W Ec) as Ic.
    destruct (existsb (ntype_eqb (n_type nc)) (n_forbidden np)); auto.
    rewrite Ip, Ic. destruct (String.eqb c p) eqn:E; auto.
    rewrite (seqb_sym p c), E. auto.
  Qed.

  Lemma dget_linked : forall g p c np nc j, p <> c ->
    dget p (g_nodes g) = Some np -> dget c (g_nodes g) = Some nc ->
    dget j (g_nodes (linked g p c np nc)) =
    if String.eqb j c then Some (with_parent nc p)
    else if String.eqb j p then Some (with_child np c) else dget j (g_nodes g).
  Proof. intros. unfold linked. simpl. rewrite !dget_dset. auto. Qed.
  Lemma dkeys_dset_old : forall A k (v : A) d, In k (dkeys d) -> dkeys (dset k v d) = dkeys d.
  Proof.
    intros A k v d H. induction d as [ | [x w] d IH]; simpl in *; [destruct H | ].
    eqb_cases k x; subst; simpl; auto. f_equal. apply IH. destruct H; congruence || auto.
  Qed.
  Lemma ids_linked : forall g p c np nc,
    dget p (g_nodes g) = Some np -> dget c (g_nodes g) = Some nc -> ids (linked g p c np nc) = ids g.
  Proof.
    intros g p c np nc Hp Hc. unfold ids, linked. simpl.
    pose proof (dget_in_keys _ _ _ Hp). pose proof (dget_in_keys _ _ _ Hc).
    rewrite !dkeys_dset_old; auto. rewrite dkeys_dset_old; auto.
  Qed.
  Lemma children_linked : forall g p c np nc j x, p <> c ->
    dget p (g_nodes g) = Some np -> dget c (g_nodes g) = Some nc ->
    (In x (children_of (linked g p c np nc) j) <-> (j = p /\ x = c) \/ In x (children_of g j)).
  Proof.
    intros g p c np nc j x Hn Hp Hc. unfold children_of. rewrite dget_linked by auto.
    eqb_cases j c; [subst | eqb_cases j p; subst].
    - rewrite Hc. simpl. split; auto. intros [[-> _] | H]; auto; congruence.
    - rewrite Hp. simpl. rewrite in_add_new. tauto.
    - tauto.
  Qed.
  Lemma parents_linked : forall g p c np nc j x, p <> c ->
    dget p (g_nodes g) = Some np -> dget c (g_nodes g) = Some nc ->
    (In x (parents_of (linked g p c np nc) j) <-> (j = c /\ x = p) \/ In x (parents_of g j)).
  Proof.
    intros g p c np nc j x Hn Hp Hc. unfold parents_of. rewrite dget_linked by auto.
    eqb_cases j c; [subst | eqb_cases j p; subst].
    - rewrite Hc. simpl. rewrite in_add_new. tauto.
    - rewrite Hp. simpl. split; auto. intros [[-> _] | H]; auto; congruence.
    - tauto.
  Qed.
  Lemma linked_core : forall g p c np nc j n, p <> c ->
    dget p (g_nodes g) = Some np -> dget c (g_nodes g) = Some nc ->
    dget j (g_nodes (linked g p c np nc)) = Some n -> exists n0, dget j (g_nodes g) = Some n0 /\ core n = core n0.
  Proof.
    intros g p c np nc j n Hn Hp Hc. rewrite dget_linked by auto.
    eqb_cases j c; [subst | eqb_cases j p; subst]; intros H.
    - inversion H; subst. eauto.
    - inversion H; subst. eauto.
    - eauto.
  Qed.
  Lemma core_inv : forall n n0, core n = core n0 ->
    n_id n = n_id n0 /\ n_type n = n_type n0 /\ n_forbidden n = n_forbidden n0.
  Proof. intros n n0 H. inversion H. auto. Qed.

  Lemma wf_linked : forall g p c np nc, wf g -> p <> c ->
    dget p (g_nodes g) = Some np -> dget c (g_nodes g) = Some nc -> allows np nc ->
    wf (linked g p c np nc).
  Proof.
    intros g p c np nc (H1 & H2 & H3 & H4 & H5) Hn Hp Hc Ha.
    assert (HC := fun j x => children_linked g p c np nc j x Hn Hp Hc).
    assert (HP := fun j x => parents_linked g p c np nc j x Hn Hp Hc).
    split; [ | split; [ | split; [ | split]]].
    - rewrite (ids_linked g p c np nc) by auto. auto.
    - intros j n. rewrite dget_linked by auto. eqb_cases j c; [subst | eqb_cases j p; subst]; intros E'.
      + inversion E'; subst. simpl. destruct (H2 _ _ Hc) as (? & ? & ?). repeat split; auto. apply NoDup_add_new; auto.
      + inversion E'; subst. simpl. destruct (H2 _ _ Hp) as (? & ? & ?). repeat split; auto. apply NoDup_add_new; auto.
      + auto.
    - intros a b. rewrite HC, HP, (H3 a b). tauto.
    - intros i Hi. apply HC in Hi as [[-> ->] | Hi]; auto. eapply H4; eauto.
    - intros a b na nb Ea Eb Hi.
      destruct (linked_core _ _ _ _ _ _ _ Hn Hp Hc Ea) as [na0 [Ea0 Ca]].
      destruct (linked_core _ _ _ _ _ _ _ Hn Hp Hc Eb) as [nb0 [Eb0 Cb]].
      apply core_inv in Ca as (_ & _ & Fa). apply core_inv in Cb as (_ & Tb & _).
      unfold allows. rewrite Fa, Tb.
      assert (Hi' : In b (children_of (linked g p c np nc) a)) by (unfold children_of; rewrite Ea; auto).
      apply HC in Hi' as [[-> ->] | Hi'].
      + rewrite Hp in Ea0. rewrite Hc in Eb0. inversion Ea0; inversion Eb0; subst. auto.
      + unfold children_of in Hi'. rewrite Ea0 in Hi'. eapply H5; eauto.
  Qed.
  Lemma add_edge_nonstr : forall g p c, (forall s, p <> IdStr s) \/ (forall s, c <> IdStr s) ->
    add_edge g p c = (g, Err WRONG_NODE_ID_TYPE).
  Proof.
    intros g p c H. unfold add_edge, get_node. destruct p, c; auto. destruct H as [H | H]; exfalso; eapply H; eauto.
  Qed.
  Lemma remove_edge_nonstr : forall g p c, (forall s, p <> IdStr s) \/ (forall s, c <> IdStr s) ->
    remove_edge g p c = (g, Err WRONG_NODE_ID_TYPE).
  Proof.
    intros g p c H. unfold remove_edge, get_node. destruct p, c; auto. destruct H as [H | H]; exfalso; eapply H; eauto.
  Qed.

  Lemma wf_add_edge : forall g p c, wf g -> wf (fst (add_edge g p c)).
  Proof.
    intros g p c W. destruct p as [ | p | ]; try (rewrite add_edge_nonstr by (left; discriminate); auto).
    destruct c as [ | c | ]; try (rewrite add_edge_nonstr by (right; discriminate); auto).
    rewrite add_edge_spec by auto.
    destruct (dget p (g_nodes g)) as [np | ] eqn:Ep; destruct (dget c (g_nodes g)) as [nc | ] eqn:Ec; auto.
    destruct (existsb (ntype_eqb (n_type nc)) (n_forbidden np)) eqn:Ea; auto.
    eqb_cases c p; auto. simpl. apply wf_linked; auto.
  Qed.

  (** ** update *)
  Lemma dget_update : forall g i f j,
    dget j (g_nodes (update i f g)) =
    if String.eqb j i then match dget i (g_nodes g) with Some n => Some (f n) | None => None end
    else dget j (g_nodes g).
  Proof.
    intros. unfold update. destruct (dget i (g_nodes g)) eqn:E; simpl.
    - rewrite dget_dset. auto.
    - eqb_cases j i; subst; auto.
  Qed.
  Lemma ids_update : forall g i f, ids (update i f g) = ids g.
  Proof.
    intros. unfold update, ids. destruct (dget i (g_nodes g)) eqn:E; simpl; auto.
    apply dkeys_dset_old. eapply dget_in_keys; eauto.
  Qed.

  (** ** remove_edge *)
  Definition unlinked g p c : graph D := update c (without_parent p) (update p (without_child c) g).

  Lemma remove_edge_spec : forall g p c, wf g ->
    remove_edge g (IdStr p) (IdStr c) =
    if smem c (children_of g p) then (unlinked g p c, Ok tt)
    else (g, Err (match dget p (g_nodes g), dget c (g_nodes g) with
                  | Some _, _ => EKey c
                  | None, Some _ => EKey p
                  | None, None => EAttr "'NoneType' object has no attribute 'parents'"
                  end)).
  Proof.
    intros g p c W. unfold remove_edge. simpl get_node. cbv iota beta. unfold children_of at 1.
    destruct (dget p (g_nodes g)) as [np | ] eqn:Ep.
    - destruct (smem c (n_children np)) eqn:Ec; auto.
      assert (Hin : In c (children_of g p)) by (unfold children_of; rewrite Ep; apply smem_in; auto).
      assert (Hpar : In p (parents_of g c)) by (apply W; auto).
      unfold parents_of in Hpar. destruct (dget c (g_nodes g)) as [nc | ]; [ | destruct Hpar].
      apply smem_in in Hpar. rewrite Hpar. auto.
    - simpl. destruct (dget c (g_nodes g)) as [nc | ] eqn:Ec; auto.
      destruct (smem p (n_parents nc)) eqn:Es; auto. exfalso.
      assert (Hc : In c (children_of g p)).
      { apply W. unfold parents_of. rewrite Ec. apply smem_in. auto. }
      unfold children_of in Hc. rewrite Ep in Hc. destruct Hc.
  Qed.

  Lemma children_unlinked : forall g p c j x, p <> c ->
    (In x (children_of (unlinked g p c) j) <-> ~ (j = p /\ x = c) /\ In x (children_of g j)).
  Proof.
    intros g p c j x Hn. unfold unlinked, children_of. rewrite !dget_update.
    eqb_cases j c; [subst | eqb_cases j p; subst].
    - rewrite (proj2 (seqb_neq c p)) by auto. destruct (dget c (g_nodes g)); simpl; [ | tauto].
      split; [ | tauto]. intros H. split; auto. intros [? _]; congruence.
    - destruct (dget p (g_nodes g)); simpl; [ | tauto]. rewrite in_drop. tauto.
    - split; [ | tauto]. intros H. split; auto. tauto.
  Qed.
  Lemma parents_unlinked : forall g p c j x, p <> c ->
    (In x (parents_of (unlinked g p c) j) <-> ~ (j = c /\ x = p) /\ In x (parents_of g j)).
  Proof.
    intros g p c j x Hn. unfold unlinked, parents_of. rewrite !dget_update.
    eqb_cases j c; [subst | eqb_cases j p; subst].
    - rewrite (proj2 (seqb_neq c p)) by auto. destruct (dget c (g_nodes g)); simpl; [ | tauto]. rewrite in_drop. tauto.
    - destruct (dget p (g_nodes g)); simpl; [ | tauto].
      split; [ | tauto]. intros H. split; auto. intros [? _]; congruence.
    - split; [ | tauto]. intros H. split; auto. tauto.
  Qed.

  (** A graph obtained by removing edges (and perhaps nodes) is well-formed when it removes
      them on both sides. *)
  Lemma wf_sub : forall g g' (E : string -> string -> Prop), wf g ->
    NoDup (ids g') ->
    (forall i n, dget i (g_nodes g') = Some n -> exists n0, dget i (g_nodes g) = Some n0 /\ core n = core n0 /\
       NoDup (n_children n) /\ NoDup (n_parents n)) ->
    (forall j x, In x (children_of g' j) <-> E j x /\ In x (children_of g j)) ->
    (forall j x, In x (parents_of g' j) <-> E x j /\ In x (parents_of g j)) ->
    wf g'.
  Proof.
    intros g g' E (H1 & H2 & H3 & H4 & H5) Hnd Hn Hc Hp. split; [ | split; [ | split; [ | split]]]; auto.
    - intros i n Hi. apply Hn in Hi as (n0 & H0 & C0 & N1 & N2). apply core_inv in C0 as [C0 _].
      apply H2 in H0. split; [ | split]; auto. rewrite C0. tauto.
    - intros p c. rewrite Hc, Hp, (H3 p c). tauto.
    - intros i Hi. apply Hc in Hi as [_ Hi]. eapply H4; eauto.
    - intros p c np nc Ep Ec Hi. assert (Hi' : In c (children_of g' p)) by (unfold children_of; rewrite Ep; auto).
      apply Hc in Hi' as [_ Hi'].
      apply Hn in Ep as (np0 & Ep & Cp & _). apply Hn in Ec as (nc0 & Ec & Cc & _).
      apply core_inv in Cp as (_ & _ & Fp). apply core_inv in Cc as (_ & Tc & _).
      unfold allows. rewrite Fp, Tc. unfold children_of in Hi'. rewrite Ep in Hi'. eapply H5; eauto.
  Qed.

  Lemma unlinked_core : forall g p c i n, wf g -> dget i (g_nodes (unlinked g p c)) = Some n ->
    exists n0, dget i (g_nodes g) = Some n0 /\ core n = core n0 /\ NoDup (n_children n) /\ NoDup (n_parents n).
  Proof.
    intros g p c i n (_ & H2 & _). unfold unlinked. rewrite !dget_update.
    eqb_cases i c; [subst; eqb_cases c p; subst | eqb_cases i p; subst].
    - destruct (dget p (g_nodes g)) as [n0 | ] eqn:E0; [ | discriminate]. intros E. inversion E; subst.
      apply H2 in E0 as (? & ? & ?). exists n0. repeat split; simpl; auto using NoDup_drop.
    - destruct (dget c (g_nodes g)) as [n0 | ] eqn:E0; [ | discriminate]. intros E1. inversion E1; subst.
      apply H2 in E0 as (? & ? & ?). exists n0. repeat split; simpl; auto using NoDup_drop.
    - destruct (dget p (g_nodes g)) as [n0 | ] eqn:E0; [ | discriminate]. intros E1. inversion E1; subst.
      apply H2 in E0 as (? & ? & ?). exists n0. repeat split; simpl; auto using NoDup_drop.
    - intros E1. pose proof (H2 _ _ E1) as (? & ? & ?). exists n. auto.
  Qed.

  Lemma wf_unlinked : forall g p c, wf g -> p <> c -> wf (unlinked g p c).
  Proof.
    intros g p c W Hn. apply wf_sub with (g := g) (E := fun a b => ~ (a = p /\ b = c)); auto.
    - unfold unlinked. rewrite !ids_update. apply W.
    - intros. apply unlinked_core with (p := p) (c := c); auto.
    - intros. apply children_unlinked; auto.
    - intros. rewrite parents_unlinked by auto. tauto.
  Qed.
  Lemma wf_remove_edge : forall g p c, wf g -> wf (fst (remove_edge g p c)).
  Proof.
    intros g p c W. destruct p as [ | p | ]; try (rewrite remove_edge_nonstr by (left; discriminate); auto).
    destruct c as [ | c | ]; try (rewrite remove_edge_nonstr by (right; discriminate); auto).
    rewrite remove_edge_spec by auto. destruct (smem c (children_of g p)) eqn:E; auto. simpl.
    apply wf_unlinked; auto. apply smem_in in E. intros ->. destruct W as (_ & _ & _ & H4 & _). eapply H4; eauto.
  Qed.

  (** ** remove_node_by_id *)
  (** All nodes with a function applied to those in a list. *)
  Lemma unlink_spec : forall has upd x l g,
    (forall i, In i l -> exists n, dget i (g_nodes g) = Some n /\ In x (has n)) -> NoDup l ->
    (forall n, In x (has n) -> True) ->
    exists g', unlink has upd x l g = (g', Ok tt) /\ ids g' = ids g /\ g_gen g' = g_gen g /\ g_counter g' = g_counter g /\
      (forall j, dget j (g_nodes g') =
         match dget j (g_nodes g) with
         | Some n => Some (if smem j l then upd n else n)
         | None => None
         end).
  Proof.
    intros has upd x l. induction l as [ | i l IH]; intros g Hl Hnd Ht; cbn [unlink].
    - exists g. repeat split; auto. intros j. destruct (dget j (g_nodes g)); auto.
    - destruct (Hl i) as [n [Hi Hx]]; [left; auto | ]. rewrite Hi, (proj2 (smem_in _ _) Hx).
      inversion Hnd; subst.
      destruct (IH (update i upd g)) as (g' & E & E1 & E2 & E3 & E4); auto.
      + intros j Hj. destruct (Hl j) as [m [Hm Hxm]]; [right; auto | ]. exists m. rewrite dget_update.
        rewrite (proj2 (seqb_neq j i)) by (intros ->; auto). auto.
      + exists g'. rewrite E. split; auto. split; [rewrite E1; apply ids_update | ].
        split; [rewrite E2; unfold update; rewrite Hi; auto | ].
        split; [rewrite E3; unfold update; rewrite Hi; auto | ].
        intros j. rewrite E4, dget_update, smem_cons. eqb_cases j i; subst; simpl.
        * rewrite Hi. rewrite (proj2 (smem_nin i l)) by auto. auto.
        * auto.
  Qed.

  Definition removed g (s : string) : graph D :=
    mkGraph (g_gen g) (g_counter g)
      (dmap (fun n => without_parent s (without_child s n)) (ddel s (g_nodes g))).

  Lemma drop_absent : forall x l, ~ In x l -> drop x l = l.
  Proof.
    intros x l H. apply filter_all. intros y Hy. apply negb_true_iff, seqb_neq. intros ->. auto.
  Qed.
  Lemma without_child_id : forall s n, ~ In s (n_children n) -> without_child s n = n.
  Proof. intros s [i d t p o f ch pa] H. unfold without_child. simpl in *. rewrite drop_absent; auto. Qed.
  Lemma without_parent_id : forall s n, ~ In s (n_parents n) -> without_parent s n = n.
  Proof. intros s [i d t p o f ch pa] H. unfold without_parent. simpl in *. rewrite drop_absent; auto. Qed.

  Lemma remove_node_spec : forall g s, wf g ->
    remove_node_by_id g (IdStr s) =
    match dget s (g_nodes g) with
    | None => (g, Err (EValue "Node was not found in the graph"))
    | Some n => (removed g s, Ok n)
    end.
  Proof.
    intros g s W. pose proof W as (H1 & H2 & H3 & H4 & H5). unfold remove_node_by_id. simpl get_node.
    destruct (dget s (g_nodes g)) as [n | ] eqn:Es; auto.
    destruct (H2 _ _ Es) as (_ & Nc & Np).
    assert (Hch : children_of g s = n_children n) by (unfold children_of; rewrite Es; auto).
    assert (Hpa : parents_of g s = n_parents n) by (unfold parents_of; rewrite Es; auto).
    assert (Hself : ~ In s (n_children n)) by (rewrite <- Hch; apply H4).
    assert (Hself' : ~ In s (n_parents n)) by (rewrite <- Hpa; intros H; apply H3 in H; eapply H4; eauto).
    destruct (unlink_spec n_parents (without_parent s) s (n_children n) g) as (g1 & E1 & I1 & G1 & C1 & D1); auto.
    { intros i Hi. rewrite <- Hch in Hi. apply H3 in Hi. unfold parents_of in Hi.
      destruct (dget i (g_nodes g)) as [m | ]; [ | destruct Hi]. eauto. }
    rewrite E1.
    destruct (unlink_spec n_children (without_child s) s (n_parents n) g1) as (g2 & E2 & I2 & G2 & C2 & D2); auto.
    { intros i Hi. rewrite D1. rewrite <- Hpa in Hi. apply H3 in Hi. unfold children_of in Hi.
      destruct (dget i (g_nodes g)) as [m | ] eqn:Em; [ | destruct Hi]. eexists. split; eauto.
      destruct (smem i (n_children n)); simpl; auto. }
    rewrite E2. f_equal. unfold removed, set_nodes. rewrite G2, C2, G1, C1. f_equal.
    apply dict_ext.
    - unfold dkeys, dmap. rewrite map_map. simpl. change (map (fun x => fst x) (ddel s (g_nodes g))) with (dkeys (ddel s (g_nodes g))).
      change (dkeys (ddel s (g_nodes g2)) = dkeys (ddel s (g_nodes g))).
      rewrite !dkeys_ddel. f_equal. transitivity (ids g1); auto.
    - apply NoDup_ddel. change (NoDup (ids g2)). rewrite I2, I1. auto.
    - intros j. rewrite dget_ddel, dget_dmap, dget_ddel. eqb_cases j s; subst; auto.
      rewrite D2, D1. destruct (dget j (g_nodes g)) as [m | ] eqn:Em; auto. f_equal.
      assert (A : smem j (n_children n) = smem s (n_parents m)).
      { rewrite <- Hch. destruct (smem s (n_parents m)) eqn:Ea.
        - apply smem_in. apply H3. unfold parents_of. rewrite Em. apply smem_in. auto.
        - apply smem_nin. intros Hin. apply H3 in Hin. unfold parents_of in Hin. rewrite Em in Hin.
          apply smem_nin in Ea. auto. }
      assert (B : smem j (n_parents n) = smem s (n_children m)).
      { rewrite <- Hpa. destruct (smem s (n_children m)) eqn:Ea.
        - apply smem_in. apply H3. unfold children_of. rewrite Em. apply smem_in. auto.
        - apply smem_nin. intros Hin. apply H3 in Hin. unfold children_of in Hin. rewrite Em in Hin.
          apply smem_nin in Ea. auto. }
      rewrite A, B. destruct (smem s (n_parents m)) eqn:Ea, (smem s (n_children m)) eqn:Eb;
        apply smem_in in Ea || apply smem_nin in Ea; apply smem_in in Eb || apply smem_nin in Eb;
        rewrite ?(without_child_id s m), ?(without_parent_id s m), ?(without_parent_id s (without_child s m)) by auto; auto.
  Qed.

  Lemma dget_removed : forall g s j,
    dget j (g_nodes (removed g s)) =
    if String.eqb j s then None
    else match dget j (g_nodes g) with
         | Some n => Some (without_parent s (without_child s n))
         | None => None
         end.
  Proof. intros. unfold removed. simpl. rewrite dget_dmap, dget_ddel. eqb_cases j s; auto. Qed.
  Lemma ids_removed : forall g s, ids (removed g s) = filter (fun x => negb (String.eqb s x)) (ids g).
  Proof. intros. unfold ids, removed. simpl. rewrite dkeys_dmap, dkeys_ddel. auto. Qed.
  Lemma children_removed : forall g s j x,
    In x (children_of (removed g s) j) <-> (j <> s /\ x <> s) /\ In x (children_of g j).
  Proof.
    intros. unfold children_of. rewrite dget_removed. eqb_cases j s; subst; [simpl; tauto | ].
    destruct (dget j (g_nodes g)); simpl; [rewrite in_drop | ]; tauto.
  Qed.
  Lemma parents_removed : forall g s j x,
    In x (parents_of (removed g s) j) <-> (j <> s /\ x <> s) /\ In x (parents_of g j).
  Proof.
    intros. unfold parents_of. rewrite dget_removed. eqb_cases j s; subst; [simpl; tauto | ].
    destruct (dget j (g_nodes g)); simpl; [rewrite in_drop | ]; tauto.
  Qed.
  Lemma wf_removed : forall g s, wf g -> wf (removed g s).
  Proof.
    intros g s W. apply wf_sub with (g := g) (E := fun a b => a <> s /\ b <> s); auto.
    - rewrite ids_removed. apply NoDup_filter. apply W.
    - intros i n. rewrite dget_removed. eqb_cases i s; [discriminate | ].
      destruct (dget i (g_nodes g)) as [n0 | ] eqn:E0; [ | discriminate]. intros E1. inversion E1; subst.
      exists n0. destruct W as (_ & H2 & _). apply H2 in E0 as (? & ? & ?). repeat split; simpl; auto using NoDup_drop.
    - intros. rewrite children_removed. tauto.
    - intros. rewrite parents_removed. tauto.
  Qed.
  Lemma wf_remove_node : forall g id, wf g -> wf (fst (remove_node_by_id g id)).
  Proof.
    intros g id W. destruct id as [ | s | ]; auto. rewrite remove_node_spec by auto.
    destruct (dget s (g_nodes g)); auto. simpl. apply wf_removed; auto.
  Qed.

  (** ** Histories *)
  Lemma wf_step : forall fac g op, wf g -> wf (fst (step fac g op)).
  Proof.
    intros fac g op W. destruct op; simpl.
    - apply wf_add_node; auto.
    - apply wf_add_edge; auto.
    - apply wf_remove_edge; auto.
    - apply wf_remove_node; auto.
    - destruct (generate_spec g) as [m [-> _]]. simpl. eapply wf_nodes; [ | eauto]. auto.
  Qed.
  Lemma wf_run : forall fac ops g, wf g -> wf (run fac g ops).
  Proof.
    intros fac ops. induction ops as [ | op ops IH]; intros g W; simpl; auto. apply IH. apply wf_step. auto.
  Qed.
End GraphFacts.
