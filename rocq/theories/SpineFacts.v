(** The graph of a Spine document: basic steps. *)
From Verif Require Import PyBase PyFacts Json Graph SpecGraph GraphFacts GraphApi GraphRemove IdFacts SpineGraph SpecSpine.
Open Scope string_scope.

(** ** The monad *)
Lemma mbind_ok : forall S A B (m : M S A) (f : A -> M S B) s s' b,
  mbind m f s = (s', Ok b) -> exists s1 a, m s = (s1, Ok a) /\ f a s1 = (s', Ok b).
Proof. intros S A B m f s s' b H. unfold mbind in H. destruct (m s) as [s1 [a | e]]; [eauto | discriminate]. Qed.
Lemma mlift_ok : forall S A (r : res A) (s s' : S) a, mlift r s = (s', Ok a) -> s' = s /\ r = Ok a.
Proof. intros S A r s s' a H. unfold mlift in H. inversion H. auto. Qed.
Lemma mret_ok : forall S A (x : A) (s s' : S) a, mret x s = (s', Ok a) -> s' = s /\ a = x.
Proof. intros S A x s s' a H. inversion H. auto. Qed.
Ltac inv_m H :=
  let s1 := fresh "g" in let a := fresh "a" in let H1 := fresh "H" in
  apply mbind_ok in H; destruct H as (s1 & a & H1 & H);
  try (apply mlift_ok in H1; destruct H1 as [-> H1]).

Lemma mforeach_inv : forall S A B (f : A -> M S B) (P : list A -> S -> Prop) l s s' r,
  (forall pre x post s1 s2 b, l = (pre ++ x :: post)%list -> P pre s1 -> f x s1 = (s2, Ok b) -> P (pre ++ [x])%list s2) ->
  P [] s -> mforeach f l s = (s', Ok r) -> P l s'.
Proof.
  intros S A B f P l s s' r Hs H0 H.
  assert (G : forall post pre s r, l = (pre ++ post)%list -> P pre s -> mforeach f post s = (s', Ok r) -> P l s').
  { induction post as [ | x post IH]; intros pre s1 r1 El HP Hf; cbn [mforeach] in Hf.
    - apply mret_ok in Hf as [-> _]. rewrite app_nil_r in El. subst. auto.
    - apply mbind_ok in Hf as (s2 & b & H1 & Hf). apply mbind_ok in Hf as (s3 & bs & H2 & Hf).
      apply mret_ok in Hf as [-> _]. apply (IH (pre ++ [x])%list s2 bs); auto.
      + rewrite <- app_assoc. auto.
      + eapply Hs; eauto. }
  apply (G l [] s r); auto.
Qed.
Lemma mforeach_app : forall S A B (f : A -> M S B) l1 l2 s,
  mforeach f (l1 ++ l2) s =
  match mforeach f l1 s with
  | (s1, Ok r1) => match mforeach f l2 s1 with (s2, Ok r2) => (s2, Ok (r1 ++ r2)%list) | (s2, Err e) => (s2, Err e) end
  | (s1, Err e) => (s1, Err e)
  end.
Proof.
  intros S A B f l1. induction l1 as [ | x l1 IH]; intros l2 s; cbn [mforeach app].
  - unfold mret. destruct (mforeach f l2 s) as [s2 [r2 | e]]; reflexivity.
  - unfold mbind. destruct (f x s) as [s1 [b | e]]; [ | reflexivity]. rewrite IH.
    destruct (mforeach f l1 s1) as [s2 [r1 | e]]; [ | reflexivity]. unfold mret.
    destruct (mforeach f l2 s2) as [s3 [r2 | e]]; reflexivity.
Qed.
(** Either the loop succeeds, or it fails at an element reached with the invariant. *)
Lemma mforeach_progress : forall S A B (f : A -> M S B) (P : list A -> S -> Prop) (E : exn -> Prop) l s,
  (forall pre x post s1, l = (pre ++ x :: post)%list -> P pre s1 ->
     (exists s2 b, f x s1 = (s2, Ok b) /\ P (pre ++ [x])%list s2) \/ (exists s2 e, f x s1 = (s2, Err e) /\ E e)) ->
  P [] s ->
  (exists s' r, mforeach f l s = (s', Ok r) /\ P l s') \/ (exists s' e, mforeach f l s = (s', Err e) /\ E e).
Proof.
  intros S A B f P E l s Hs H0.
  assert (G : forall post pre s, l = (pre ++ post)%list -> P pre s ->
    (exists s' r, mforeach f post s = (s', Ok r) /\ P l s') \/ (exists s' e, mforeach f post s = (s', Err e) /\ E e)).
  { induction post as [ | x post IH]; intros pre s1 El HP; cbn [mforeach].
    - left. exists s1, []. rewrite app_nil_r in El. subst. split; auto.
    - destruct (Hs pre x post s1 El HP) as [(s2 & b & E2 & H2) | (s2 & e & E2 & He)].
      + destruct (IH (pre ++ [x])%list s2) as [(s3 & r & E3 & H3) | (s3 & e & E3 & He)]; auto.
        * rewrite <- app_assoc. auto.
        * left. exists s3, (b :: r). unfold mbind. rewrite E2, E3. split; auto.
        * right. exists s3, e. unfold mbind. rewrite E2, E3. split; auto.
      + right. exists s2, e. unfold mbind. rewrite E2. split; auto. }
  apply (G l []); auto.
Qed.

(** ** Typed nodes *)
Definition five : list string := [T_BONE; T_SLOT; T_IK; T_ATTACHMENT; T_IMAGE].
Lemma five_kinds : forall t, In t five -> In t kinds.
Proof. intros t H. unfold five, kinds in *. simpl in *. tauto. Qed.
Definition forbids (t : string) : list ntype :=
  match spine_factory (Some (NTStr t)) with Some (_, f) => f | None => [] end.
Lemma factory_five : forall t, In t five -> spine_factory (Some (NTStr t)) = Some (NTStr t, forbids t).
Proof. intros t H. repeat (destruct H as [<- | H]; [reflexivity | ]). destruct H. Qed.

Definition good (g : sgraph) : Prop :=
  (exists ops, g = run spine_factory new_graph ops) /\
  forall i n, dget i (g_nodes g) = Some n -> exists t s x,
    In t five /\ i = graph_id t s /\ n_type n = NTStr t /\ n_data n = Some x /\ n_forbidden n = forbids t.

Lemma good_reachable : forall g, good g -> reachable g.
Proof. intros g [[ops E] _]. exists spine_factory, ops. auto. Qed.
Lemma good_wf : forall g, good g -> wf g.
Proof. intros g H. apply reachable_wf, good_reachable. auto. Qed.
Lemma good_new : good new_graph.
Proof. split; [exists []; auto | ]. intros i n H. discriminate. Qed.
Lemma reach_step : forall g op, (exists ops, g = run spine_factory new_graph ops) ->
  exists ops, fst (step spine_factory g op) = run (D := ndata) spine_factory new_graph ops.
Proof. intros g op [ops ->]. exists (ops ++ [op])%list. unfold run. rewrite fold_left_app. auto. Qed.

(** Ids and data of the nodes of a type, in the order of the graph. *)
Definition tn_of (t : string) (ns : dict (node ndata)) : list (string * ndata) :=
  flat_map (fun kv => if ntype_eqb (n_type (snd kv)) (NTStr t)
                      then match n_data (snd kv) with Some d => [(fst kv, d)] | None => [] end
                      else []) ns.
Definition tn (g : sgraph) (t : string) : list (string * ndata) := tn_of t (g_nodes g).
Definition has (g : sgraph) (t s : string) : Prop := In (graph_id t s) (ids g).

Lemma nodes_of_type_tn : forall t g, nodes_of_type t g = map snd (tn g t).
Proof.
  intros t g. unfold nodes_of_type, tn, dvals. induction (g_nodes g) as [ | [k n] l IH]; simpl; auto.
  rewrite map_app, IH. destruct (ntype_eqb (n_type n) (NTStr t)); auto. destruct (n_data n); auto.
Qed.
Lemma tn_in : forall g t i x, good g -> (In (i, x) (tn g t) <-> exists n, dget i (g_nodes g) = Some n /\ n_type n = NTStr t /\ n_data n = Some x).
Proof.
  intros g t i x G. pose proof (good_wf g G) as W. unfold tn, tn_of. rewrite in_flat_map. split.
  - intros [[k n] [Hk H]]. simpl in H. destruct (ntype_eqb (n_type n) (NTStr t)) eqn:E; [ | destruct H].
    apply ntype_eqb_eq in E. destruct (n_data n) as [d | ] eqn:Ed; [ | destruct H]. destruct H as [H | []]. injection H as <- <-.
    exists n. split; [ | auto]. apply in_dget; auto. apply W.
  - intros (n & Hn & Ht & Hd). exists (i, n). split; [apply dget_some_in; auto | ]. simpl.
    rewrite (proj2 (ntype_eqb_eq _ _) Ht), Hd. left. auto.
Qed.
Lemma has_tn : forall g t s, good g -> In t five -> (has g t s <-> In (graph_id t s) (map fst (tn g t))).
Proof.
  intros g t s G Ht. unfold has. split.
  - intros H. apply in_keys_dget in H as [n Hn]. destruct (proj2 G _ _ Hn) as (t' & s' & x & Ht' & E & Ty & Dn & _).
    apply graph_id_inj in E as [<- <-]; auto using five_kinds. apply in_map_iff. exists (graph_id t s, x). split; auto.
    apply tn_in; eauto.
  - intros H. apply in_map_iff in H as ([i x] & E & H). simpl in E. subst. apply tn_in in H as (n & Hn & _); auto.
    eapply dget_in_keys; eauto.
Qed.
Lemma tn_NoDup : forall g t, good g -> NoDup (map fst (tn g t)).
Proof.
  intros g t G. pose proof (proj1 (good_wf g G)) as N. unfold tn, ids, dkeys in *.
  induction (g_nodes g) as [ | [k n] l IH]; simpl in *; [constructor | ]. apply NoDup_cons_iff in N as [N1 N2].
  rewrite map_app. apply NoDup_app_intro.
  - destruct (ntype_eqb (n_type n) (NTStr t)); [ | constructor]. destruct (n_data n); simpl; [ | constructor]. constructor; auto. constructor.
  - auto.
  - intros x Hx Hy. assert (x = k).
    { destruct (ntype_eqb (n_type n) (NTStr t)); [ | destruct Hx]. destruct (n_data n); [ | destruct Hx]. destruct Hx as [ | []]; auto. }
    subst. apply N1. apply in_map_iff in Hy as ([i d] & E & Hy). simpl in E. subst.
    unfold tn_of in Hy. apply in_flat_map in Hy as ([k' n'] & Hk & Hy). simpl in Hy.
    destruct (ntype_eqb (n_type n') (NTStr t)); [ | destruct Hy]. destruct (n_data n'); [ | destruct Hy].
    destruct Hy as [E | []]. injection E as -> _. apply in_map_iff. exists (k, n'). auto.
Qed.
Lemma ids_tn : forall g i, good g -> (In i (ids g) <-> exists t, In t five /\ In i (map fst (tn g t))).
Proof.
  intros g i G. split.
  - intros H. apply in_keys_dget in H as [n Hn]. destruct (proj2 G _ _ Hn) as (t & s & x & Ht & E & Ty & Dn & _).
    exists t. split; auto. apply in_map_iff. exists (i, x). split; auto. apply tn_in; eauto.
  - intros (t & Ht & H). apply in_map_iff in H as ([i' x] & E & H). simpl in E. subst.
    apply tn_in in H as (n & Hn & _); auto. eapply dget_in_keys; eauto.
Qed.
Lemma tn_app : forall t a b, tn_of t (a ++ b)%list = (tn_of t a ++ tn_of t b)%list.
Proof. intros. unfold tn_of. apply flat_map_app. Qed.
Lemma tn_dset : forall t ns k n n0, dget k ns = Some n0 -> n_type n = n_type n0 -> n_data n = n_data n0 ->
  tn_of t (dset k n ns) = tn_of t ns.
Proof.
  intros t ns k n n0 H H1 H2. induction ns as [ | [k' m] ns IH]; simpl in H; [discriminate | ].
  cbn [dset]. eqb_cases k k'.
  - injection H as <-. unfold tn_of. simpl. rewrite H1, H2. auto.
  - change ((k', m) :: dset k n ns) with ([(k', m)] ++ dset k n ns)%list. change ((k', m) :: ns) with ([(k', m)] ++ ns)%list.
    rewrite !tn_app, IH; auto.
Qed.

(** ** Adding nodes *)
Definition tn_add (t : string) (x : string * ndata) (t' : string) : list (string * ndata) :=
  if String.eqb t t' then [x] else [].

Lemma g_add_cases : forall g t s x g' r, good g -> In t five -> g_add t (graph_id t s) x g = (g', r) ->
  (r = Ok tt /\ ~ has g t s /\ good g' /\ ids g' = (ids g ++ [graph_id t s])%list /\
   (forall t', tn g' t' = (tn g t' ++ tn_add t (graph_id t s, x) t')%list) /\
   (forall p c, edge g' p c <-> edge g p c)) \/
  (exists w, r = Err (EValue w) /\ has g t s).
Proof.
  intros g t s x g' r G Ht H. unfold g_add, mbind in H.
  destruct (add_node_spec spine_factory g (IdStr (graph_id t s)) (Some x) (Some (NTStr t))) as (m & g1 & E1 & _ & _ & E).
  assert (Rg : exists ops, fst (add_node spine_factory g (IdStr (graph_id t s)) (Some x) (Some (NTStr t))) = run (D := ndata) spine_factory new_graph ops).
  { apply (reach_step g (OpAddNode (IdStr (graph_id t s)) (Some x) (Some (NTStr t)))). apply G. }
  rewrite E in H, Rg. cbv zeta in H, Rg. rewrite (factory_five t Ht) in H, Rg.
  destruct (smem (graph_id t s) (ids g)) eqn:Es.
  - right. injection H as <- <-. apply smem_in in Es. eauto.
  - left. unfold mret in H. injection H as <- <-. cbn [fst] in Rg. apply smem_nin in Es. set (nd := mkNode _ _ _ _ _ _ _ _) in *.
    split; [auto | ]. split; [auto | ]. split; [ | split; [ | split]].
    + split; [auto | ]. cbn [g_nodes]. intros i n. rewrite dget_app.
      destruct (dget i (g_nodes g)) as [n0 | ] eqn:Ei.
      * intros E'. injection E' as <-. apply (proj2 G _ _ Ei).
      * simpl. eqb_cases i (graph_id t s); [ | discriminate]. intros E'. injection E' as <-. exists t, s, x. repeat split; auto.
    + unfold ids, dkeys. cbn [g_nodes]. rewrite map_app. auto.
    + intros t'. unfold tn. cbn [g_nodes]. rewrite tn_app. f_equal. unfold tn_of, tn_add. simpl.
      destruct (String.eqb t t'); auto.
    + intros p c. rewrite !edge_children. unfold children_of. cbn [g_nodes]. rewrite dget_app.
      destruct (dget p (g_nodes g)) eqn:Ep; [reflexivity | ]. simpl. destruct (String.eqb p (graph_id t s)); simpl; reflexivity.
Qed.
Lemma g_add_ok : forall g t s x g' u, good g -> In t five -> g_add t (graph_id t s) x g = (g', Ok u) ->
  ~ has g t s /\ good g' /\ ids g' = (ids g ++ [graph_id t s])%list /\
  (forall t', tn g' t' = (tn g t' ++ tn_add t (graph_id t s, x) t')%list) /\
  (forall p c, edge g' p c <-> edge g p c).
Proof.
  intros g t s x g' u G Ht H. destruct (g_add_cases _ _ _ _ _ _ G Ht H) as [(_ & K) | (w & E & _)]; [auto | discriminate].
Qed.

(** ** Adding edges *)
Definition may (tp tc : string) : bool := negb (existsb (ntype_eqb (NTStr tc)) (forbids tp)).
Lemma g_edge_cases : forall g tp tc p c, good g -> In tp five -> In tc five -> has g tp p -> has g tc c -> may tp tc = true ->
  (graph_id tp p = graph_id tc c /\ exists w, g_edge (graph_id tp p) (graph_id tc c) g = (g, Err (EValue w))) \/
  (graph_id tp p <> graph_id tc c /\ exists g', g_edge (graph_id tp p) (graph_id tc c) g = (g', Ok tt) /\ good g' /\ ids g' = ids g /\
    (forall t, tn g' t = tn g t) /\
    (forall a b, edge g' a b <-> edge g a b \/ (a = graph_id tp p /\ b = graph_id tc c))).
Proof.
  intros g tp tc p c G Hp Hc Ip Ic Hm. pose proof (good_wf g G) as W.
  apply in_keys_dget in Ip as [np Ep]. apply in_keys_dget in Ic as [nc Ec].
  assert (Rg : exists ops, fst (add_edge g (IdStr (graph_id tp p)) (IdStr (graph_id tc c))) = run (D := ndata) spine_factory new_graph ops).
  { apply (reach_step g (OpAddEdge (IdStr (graph_id tp p)) (IdStr (graph_id tc c)))). apply G. }
  unfold g_edge. rewrite (add_edge_spec g (graph_id tp p) (graph_id tc c) W) in *. rewrite Ep, Ec in *.
  destruct (proj2 G _ _ Ep) as (t1 & s1 & x1 & H1 & E1 & Ty1 & D1 & F1). apply graph_id_inj in E1 as [<- <-]; auto using five_kinds.
  destruct (proj2 G _ _ Ec) as (t2 & s2 & x2 & H2 & E2 & Ty2 & D2 & F2). apply graph_id_inj in E2 as [<- <-]; auto using five_kinds.
  rewrite Ty2, F1 in *. unfold may in Hm. apply negb_true_iff in Hm. rewrite Hm in *.
  eqb_cases (graph_id tc c) (graph_id tp p); [left; eauto | right].
  assert (Hne : graph_id tp p <> graph_id tc c) by congruence. split; [auto | ].
  eexists. split; [reflexivity | ]. cbn [fst] in Rg. split; [ | split; [ | split]].
  - split; [auto | ]. intros i n Hn. destruct (linked_core g _ _ _ _ _ _ Hne Ep Ec Hn) as (n0 & E0 & C0).
    destruct (proj2 G _ _ E0) as (t & s & x & K). exists t, s, x. destruct n, n0; unfold core in C0; simpl in *. inversion C0; subst. auto.
  - apply (ids_linked g _ _ _ _ Ep Ec).
  - intros t. unfold tn, linked. cbn [g_nodes set_nodes].
    assert (E' : tn_of t (dset (graph_id tp p) (with_child np (graph_id tc c)) (g_nodes g)) = tn_of t (g_nodes g)) by (eapply tn_dset; eauto).
    rewrite <- E'. eapply tn_dset with (n0 := nc); auto. rewrite dget_dset_other; auto.
  - intros a b. rewrite !edge_children, (children_linked g _ _ _ _ a b Hne Ep Ec). tauto.
Qed.
Lemma g_edge_ok : forall g tp tc p c g' u, good g -> In tp five -> In tc five -> has g tp p -> has g tc c -> may tp tc = true ->
  g_edge (graph_id tp p) (graph_id tc c) g = (g', Ok u) ->
  graph_id tp p <> graph_id tc c /\ good g' /\ ids g' = ids g /\ (forall t, tn g' t = tn g t) /\
  (forall a b, edge g' a b <-> edge g a b \/ (a = graph_id tp p /\ b = graph_id tc c)).
Proof.
  intros g tp tc p c g' u G Hp Hc Ip Ic Hm H.
  destruct (g_edge_cases g tp tc p c G Hp Hc Ip Ic Hm) as [(_ & w & E) | (Hne & g2 & E & K)]; rewrite E in H; [discriminate | ].
  injection H as <- _. auto.
Qed.
Lemma has_add : forall g g' t s t' s', good g -> good g' -> In t five -> In t' five -> ids g' = (ids g ++ [graph_id t s])%list ->
  (has g' t' s' <-> has g t' s' \/ (t' = t /\ s' = s)).
Proof.
  intros g g' t s t' s' G G' Ht Ht' E. unfold has. rewrite E, in_app_iff. simpl. split.
  - intros [H | [H | []]]; auto. apply graph_id_inj in H as [<- <-]; auto using five_kinds.
  - intros [H | [-> ->]]; auto.
Qed.
