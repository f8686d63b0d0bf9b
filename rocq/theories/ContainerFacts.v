(** Removing slots and attachments by their names. *)
From Verif Require Import PyBase PyFacts Json Graph SpecGraph GraphFacts GraphApi GraphRemove IdFacts SpineGraph SpecSpine SpineFacts SpineRemove SpecContainer.
Open Scope string_scope.

Lemma run_app : forall fac (g : sgraph) a b, run fac g (a ++ b) = run fac (run fac g a) b.
Proof. intros. unfold run. apply fold_left_app. Qed.
Lemma reachable_minus : forall (g : sgraph) l, reachable g -> NoDup l -> incl l (ids g) -> reachable (minus g l).
Proof.
  intros g l R N I. pose proof (reachable_wf g R) as W. destruct R as (fac & ops & ->).
  exists fac, (ops ++ map (fun i => OpRemoveNode (IdStr i)) l)%list. rewrite run_app. symmetry. apply run_remove; auto.
Qed.

Section Names.
  Variable idf : string -> string.
  Hypothesis idf_inj : forall a b, idf a = idf b -> a = b.
  Let f (l : list string) : M sgraph (list (node ndata)) := mforeach (fun s => g_remove (idf s)) l.

  Lemma is_node : forall (g : sgraph) i, In i (ids g) <-> exists n, has_node g i n.
  Proof.
    intros g i. split.
    - intros H. apply in_keys_dget in H as [n H]. exists n. apply has_node_dget. auto.
    - intros [n H]. apply has_node_dget in H. eapply dget_in_keys; eauto.
  Qed.
  Lemma map_nodup : forall l, NoDup l -> NoDup (map idf l).
  Proof. intros l H. apply FinFun.Injective_map_NoDup; auto. Qed.
  Lemma in_map_idf : forall s l, In (idf s) (map idf l) <-> In s l.
  Proof.
    intros s l. rewrite in_map_iff. split; [ | eauto]. intros (x & E & H). apply idf_inj in E. subst. auto.
  Qed.
  Lemma there_incl : forall g l, all_there idf g l <-> NoDup l /\ incl (map idf l) (ids g).
  Proof.
    intros g l. unfold all_there. split; intros [N H]; split; auto.
    - intros i Hi. apply in_map_iff in Hi as (s & <- & Hs). apply is_node. auto.
    - intros s Hs. apply is_node, H, in_map. auto.
  Qed.

  (** One by one: either all go, or the first that is not there stops it. *)
  Lemma remove_each : forall l R (g : sgraph), wf g -> NoDup R -> incl (map idf R) (ids g) ->
    (exists r, f l (minus g (map idf R)) = (minus g (map idf (R ++ l)), Ok r) /\ all_there idf g (R ++ l) /\ length r = length l /\
       forall l1 s l2, l = (l1 ++ s :: l2)%list -> exists n, nth_error r (length l1) = Some (node_minus (map idf (R ++ l1)) n) /\ dget (idf s) (g_nodes g) = Some n) \/
    (exists l1 s l2 w, l = (l1 ++ s :: l2)%list /\ all_there idf g (R ++ l1) /\ (In s (R ++ l1) \/ forall n, ~ has_node g (idf s) n) /\
       f l (minus g (map idf R)) = (minus g (map idf (R ++ l1)), Err (EValue w))).
  Proof.
    induction l as [ | s l IH]; intros R g W N I.
    - left. exists []. rewrite app_nil_r. split; [reflexivity | ]. split; [apply there_incl; auto | ]. split; [auto | ]. intros [ | ? ?] ? ? E; discriminate E.
    - assert (Q : all_there idf g R) by (apply there_incl; auto).
      pose proof (remove_one (minus g (map idf R)) (idf s) (wf_minus _ _ W)) as E. rewrite dget_minus in E.
      destruct (smem (idf s) (map idf R)) eqn:Es; [ | destruct (dget (idf s) (g_nodes g)) as [n | ] eqn:En]; cbn [option_map] in E.
      + apply smem_in in Es. apply (proj1 (in_map_idf s R)) in Es. right. exists [], s, l. eexists. rewrite app_nil_r. split; [auto | ]. split; [auto | ]. split; [auto | ].
        unfold f. cbn [mforeach]. unfold mbind, g_remove. rewrite E. reflexivity.
      + apply smem_nin in Es. rewrite in_map_idf in Es. rewrite minus_app in E.
        replace (map idf R ++ [idf s])%list with (map idf (R ++ [s])) in E by (rewrite map_app; auto).
        destruct (IH (R ++ [s])%list g W) as [(r & E' & T & L & K) | (l1 & x & l2 & w & El & T & C & E')].
        * apply (Permutation.Permutation_NoDup (Permutation.Permutation_app_comm [s] R)). constructor; auto.
        * intros i. rewrite map_app, in_app_iff. intros [H | [<- | []]]; [auto | ]. eapply dget_in_keys; eauto.
        * left. exists (node_minus (map idf R) n :: r). rewrite <- app_assoc in E', T. cbn [app] in E', T.
          split; [ | split; [auto | ]].
          { unfold f in *. cbn [mforeach]. unfold mbind, g_remove at 1. rewrite E. rewrite E'. reflexivity. }
          split; [simpl; auto | ]. intros [ | y l1] x l2 El; injection El as <- El.
          { exists n. rewrite app_nil_r. auto. }
          destruct (K _ _ _ El) as (m & Hm & Hd). exists m. rewrite <- app_assoc in Hm. auto.
        * right. exists (s :: l1), x, l2, w. rewrite <- app_assoc in E', T, C. cbn [app] in E', T, C. split; [rewrite El; auto | ]. split; [auto | ]. split; [auto | ].
          unfold f in *. cbn [mforeach]. unfold mbind, g_remove at 1. rewrite E. rewrite E'. reflexivity.
      + right. exists [], s, l. eexists. rewrite app_nil_r. split; [auto | ]. split; [auto | ]. split.
        { right. intros n H. apply has_node_dget in H. congruence. }
        unfold f. cbn [mforeach]. unfold mbind, g_remove. rewrite E. reflexivity.
  Qed.

  Lemma names_removed : removes_names idf f.
  Proof.
    intros g l R. pose proof (reachable_wf g R) as W.
    assert (O : forall h, all_there idf g h -> without g (minus g (map idf h)) (fun i => In i (map idf h)) /\ reachable (minus g (map idf h))).
    { intros h H. apply there_incl in H as [N I]. split; [apply minus_without | apply reachable_minus; auto using map_nodup]. }
    pose proof (remove_each l [] g W (NoDup_nil _)) as X. rewrite minus_nil in X. cbn [app] in X.
    destruct X as [(r & E & T & L & K) | (l1 & s & l2 & w & El & T & C & E)].
    - intros i [].
    - split; [intros _ | contradiction]. destruct (O l T) as [O1 O2]. exists (minus g (map idf l)), r. repeat (split; [auto | ]).
      intros l1 s l2 El. destruct (K l1 s l2 El) as (n & Hn & Hd). exists (node_minus (map idf l1) n). split; [auto | ].
      split; [exists n; split; [apply has_node_dget; auto | auto] | ]. split; [cbn; eapply wf_id; eauto | ]. split; intros x; cbn [n_children n_parents node_minus]; rewrite in_keep.
      + rewrite edge_children. unfold children_of. rewrite Hd. tauto.
      + assert (Y : edge g x (idf s) <-> In x (parents_of g (idf s))) by (rewrite edge_children; apply W). rewrite Y. unfold parents_of. rewrite Hd. tauto.
    - split.
      + intros [N H]. exfalso. subst l. destruct C as [C | C].
        * apply NoDup_remove_2 in N. apply N, in_or_app. auto.
        * destruct (H s) as [n Hn]; [apply in_or_app; right; left; auto | ]. apply (C n Hn).
      + intros _. destruct (O l1 T) as [O1 O2]. exists l1, s, l2, (minus g (map idf l1)), w. auto 7.
  Qed.
End Names.

Lemma app_inj_r : forall a b s, a ++ s = b ++ s -> a = b.
Proof.
  intros a b s H. apply (f_equal chars) in H. unfold chars in H.
  assert (L : forall x y, list_ascii_of_string (x ++ y) = (list_ascii_of_string x ++ list_ascii_of_string y)%list) by (induction x; intros; simpl; f_equal; auto).
  rewrite !L in H. apply app_inv_tail in H. rewrite <- (string_of_list_ascii_of_string a), <- (string_of_list_ascii_of_string b), H. auto.
Qed.
Lemma remove_slots_names : removes_names slot_id remove_slots.
Proof. apply names_removed. intros a b. apply app_inj_r. Qed.
Lemma remove_attachments_names : removes_names att_id remove_attachments.
Proof. apply names_removed. intros a b. apply app_inj_r. Qed.
