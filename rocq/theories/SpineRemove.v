(** Removing nodes from the graph of a document. *)
From Verif Require Import PyBase PyFacts Json Graph SpecGraph GraphFacts GraphApi GraphRemove IdFacts SpineGraph SpecSpine SpineFacts BuildFacts BuildTotal.
Open Scope string_scope.

Lemma run_remove : forall fac l (g : sgraph), wf g -> NoDup l -> incl l (ids g) ->
  run fac g (map (fun i => OpRemoveNode (IdStr i)) l) = minus g l.
Proof.
  intros fac l. induction l as [ | s l IH]; intros g W N I; [rewrite minus_nil; auto | ].
  apply NoDup_cons_iff in N as [N1 N2]. assert (Hs : In s (ids g)) by (apply I; left; auto).
  apply in_keys_dget in Hs as [n Hn]. pose proof (remove_one g s W) as E. rewrite Hn in E.
  unfold run in *. cbn [map fold_left]. unfold step at 2. rewrite E. cbn [out_of fst]. rewrite IH; auto.
  - apply minus_app.
  - apply wf_minus. auto.
  - intros x Hx. rewrite ids_minus. apply in_keep. split; [apply I; right; auto | ]. intros [-> | []]. auto.
Qed.
Lemma reachable_minus : forall (g : sgraph) l, reachable g -> NoDup l -> incl l (ids g) -> reachable (minus g l).
Proof.
  intros g l R N I. pose proof (reachable_wf g R) as W. destruct R as (fac & ops & E).
  exists fac, (ops ++ map (fun i => OpRemoveNode (IdStr i)) l)%list. unfold run. rewrite fold_left_app. fold (run fac new_graph ops). rewrite <- E.
  symmetry. apply run_remove; auto.
Qed.
Lemma good_minus : forall g l, good g -> NoDup l -> incl l (ids g) -> good (minus g l).
Proof.
  intros g l G N I. pose proof (good_wf g G) as W. destruct G as [(ops & E) F]. split.
  - exists (ops ++ map (fun i => OpRemoveNode (IdStr i)) l)%list. unfold run. rewrite fold_left_app. fold (run spine_factory (@new_graph ndata) ops). rewrite <- E.
    symmetry. apply run_remove; auto.
  - intros i n H. rewrite dget_minus in H. destruct (smem i l); [discriminate | ]. destruct (dget i (g_nodes g)) as [m | ] eqn:Em; [ | discriminate].
    injection H as <-. destruct (F i m Em) as (t & s & x & K). exists t, s, x. auto.
Qed.
Lemma tn_minus : forall g l t, tn (minus g l) t = filter (fun ix => negb (smem (fst ix) l)) (tn g t).
Proof.
  intros g l t. unfold tn, minus. cbn [g_nodes]. induction (g_nodes g) as [ | [k n] ns IH]; simpl; auto.
  destruct (smem k l) eqn:E; cbn [negb].
  - rewrite IH. destruct (ntype_eqb (n_type n) (NTStr t)); auto. destruct (n_data n); auto. simpl. rewrite E. auto.
  - simpl. rewrite filter_app. rewrite <- IH. f_equal. destruct (ntype_eqb (n_type n) (NTStr t)); auto. destruct (n_data n); auto. simpl. rewrite E. auto.
Qed.
Lemma has_minus : forall g l t s, (has (minus g l) t s <-> has g t s /\ ~ In (graph_id t s) l).
Proof. intros. unfold has. rewrite ids_minus. apply in_keep. Qed.
Lemma edge_minus : forall g l p c, edge (minus (D := ndata) g l) p c <-> edge g p c /\ ~ In p l /\ ~ In c l.
Proof.
  intros g l p c. rewrite !edge_children, children_minus. destruct (smem p l) eqn:E.
  - apply smem_in in E. simpl. tauto.
  - apply smem_nin in E. rewrite in_keep. tauto.
Qed.
Lemma minus_without : forall g l, without g (minus g l) (fun i => In i l).
Proof.
  intros g l. split; [ | split].
  - intros i n' H. apply has_node_dget in H. rewrite dget_minus in H. destruct (smem i l) eqn:E; [discriminate | ].
    apply smem_nin in E. split; auto. destruct (dget i (g_nodes g)) as [m | ] eqn:Em; [ | discriminate]. injection H as <-.
    exists m. split; [apply has_node_dget; auto | auto].
  - intros i n H Hn. apply has_node_dget in H. exists (node_minus l n). apply has_node_dget. rewrite dget_minus.
    rewrite (proj2 (smem_nin i l) Hn), H. auto.
  - intros p c. apply edge_minus.
Qed.
Lemma without_ext : forall g g' P Q, (forall i, P i <-> Q i) -> without g g' P -> without g g' Q.
Proof.
  intros g g' P Q E (H1 & H2 & H3). split; [ | split].
  - intros i n' H. destruct (H1 i n' H) as [K K']. split; auto. rewrite <- E. auto.
  - intros i n H Hn. apply (H2 i n); auto. rewrite E. auto.
  - intros p c. rewrite H3, !E. tauto.
Qed.

Lemma doomed_below : forall t g i, doomed children_of t g i <-> only_below g t i.
Proof.
  intros t g i. split; intros H.
  - induction H as [i n Hi Ht Hc IH]. constructor; [exists n; split; auto; apply has_node_dget; auto | ]. intros c K. apply IH. apply edge_children. auto.
  - induction H as [i (n & Hn & Ht) Hc IH]. apply has_node_dget in Hn. apply (doomed_intro children_of t g i n); auto. intros c K. apply IH. apply edge_children. auto.
Qed.
Lemma doomed_above : forall t g i, wf g -> (doomed parents_of t g i <-> only_above g t i).
Proof.
  intros t g i W. assert (X : forall p c, edge g p c <-> In p (parents_of g c)).
  { intros p c. rewrite edge_children. apply W. }
  split; intros H.
  - induction H as [i n Hi Ht Hc IH]. constructor; [exists n; split; auto; apply has_node_dget; auto | ]. intros c K. apply IH. apply X. auto.
  - induction H as [i (n & Hn & Ht) Hc IH]. apply has_node_dget in Hn. apply (doomed_intro parents_of t g i n); auto. intros c K. apply IH. apply X. auto.
Qed.
Lemma doomed_in : forall rel t g i, doomed rel t g i -> In i (ids g).
Proof. intros rel t g i H. destruct H as [i n H _ _]. eapply dget_in_keys; eauto. Qed.

Lemma leafs_removed : forall (g : sgraph) t, reachable g -> exists g' l, remove_leafs_of_type t g = (g', Ok (map (to_base_id t) l)) /\
  NoDup l /\ (forall i, In i l <-> only_below g t i) /\ without g g' (only_below g t) /\ reachable g' /\
  (forall i, typed g' t i -> ~ tail g' i).
Proof.
  intros g t R. pose proof (reachable_wf g R) as W. destruct (remove_leafs_spec t g W) as (l & E & N & H).
  assert (H' : forall i, In i l <-> only_below g t i) by (intros i; rewrite H; apply doomed_below).
  exists (minus g l), l. split; [auto | ]. split; [auto | ]. split; [auto | ]. split; [ | split].
  - eapply without_ext; [apply H' | apply minus_without].
  - apply reachable_minus; auto. intros i Hi. apply H in Hi. eapply doomed_in; eauto.
  - intros i (n' & Hn & Ht) Hl. apply tail_iff in Hl as [_ Hc]. apply has_node_dget in Hn. rewrite dget_minus in Hn.
    destruct (smem i l) eqn:Es; [discriminate | ]. destruct (dget i (g_nodes g)) as [m | ] eqn:Em; [ | discriminate]. injection Hn as <-.
    apply smem_nin in Es as Ni. apply Ni. apply H. apply (doomed_intro children_of t g i m); auto.
    intros c K. apply H. rewrite children_minus, Es in Hc. destruct (in_dec string_dec c l) as [ | Hn]; auto. exfalso.
    assert (X : In c (keep l (children_of g i))) by (apply in_keep; auto). rewrite Hc in X. destruct X.
Qed.
Lemma heads_removed : forall (g : sgraph) t, reachable g -> exists g' l, remove_heads_of_type t g = (g', Ok (map (to_base_id t) l)) /\
  NoDup l /\ (forall i, In i l <-> only_above g t i) /\ without g g' (only_above g t) /\ reachable g' /\
  (forall i, typed g' t i -> ~ head g' i).
Proof.
  intros g t R. pose proof (reachable_wf g R) as W. destruct (remove_heads_spec t g W) as (l & E & N & H).
  assert (H' : forall i, In i l <-> only_above g t i) by (intros i; rewrite H; apply doomed_above; auto).
  exists (minus g l), l. split; [auto | ]. split; [auto | ]. split; [auto | ]. split; [ | split].
  - eapply without_ext; [apply H' | apply minus_without].
  - apply reachable_minus; auto. intros i Hi. apply H in Hi. eapply doomed_in; eauto.
  - intros i (n' & Hn & Ht) Hl. apply head_iff in Hl as [_ Hc]. apply has_node_dget in Hn. rewrite dget_minus in Hn.
    destruct (smem i l) eqn:Es; [discriminate | ]. destruct (dget i (g_nodes g)) as [m | ] eqn:Em; [ | discriminate]. injection Hn as <-.
    apply smem_nin in Es as Ni. apply Ni. apply H. apply (doomed_intro parents_of t g i m); auto.
    intros c K. apply H. rewrite parents_minus, Es in Hc. destruct (in_dec string_dec c l) as [ | Hn]; auto. exfalso.
    assert (X : In c (keep l (parents_of g i))) by (apply in_keep; auto). rewrite Hc in X. destruct X.
Qed.
