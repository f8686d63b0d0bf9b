(** The facts about graphs in the terms of SpecGraph.v. *)
From Coq Require Import Relation_Operators Operators_Properties.
From Verif Require Import PyBase PyFacts Graph SpecGraph GraphFacts GraphHist GraphSearch GraphPaths GraphOrder.
Open Scope string_scope.

Section Api.
  Context {D : Type}.
  Implicit Types (g : graph D) (n : node D).

  Lemma reachable_wf : forall g, reachable g -> wf g.
  Proof. intros g (fac & ops & ->). apply wf_run. apply wf_new. Qed.

  (** C13 *)
  Lemma add_in_use : forall fac g i n d t, has_node g i n ->
    exists g' m, add_node fac g (IdStr i) d t = (g', Err (EValue m)) /\ g_nodes g' = g_nodes g.
  Proof.
    intros fac g i n d t H. destruct (add_node_spec fac g (IdStr i) d t) as (m & g1 & E1 & _ & _ & E).
    cbv zeta in E. apply has_node_dget, dget_in_keys, smem_in in H. unfold ids in E. rewrite H in E. rewrite E. subst g1. eauto.
  Qed.
  Lemma add_fresh : forall fac g i d t ty forb, no_node g i -> fac t = Some (ty, forb) ->
    exists g' n, add_node fac g (IdStr i) d t = (g', Ok n) /\ has_node g' i n /\
      n_id n = i /\ n_data n = d /\ n_type n = ty /\ n_forbidden n = forb /\ n_children n = [] /\ n_parents n = [] /\
      (forall j, j <> i -> get_node g' (IdStr j) = get_node g (IdStr j)).
  Proof.
    intros fac g i d t ty forb H Hf. destruct (add_node_spec fac g (IdStr i) d t) as (m & g1 & E1 & _ & _ & E).
    cbv zeta in E. rewrite Hf in E. apply no_node_dget in H. pose proof H as H'. apply dget_none in H'.
    unfold ids in E. rewrite (proj2 (smem_nin _ _) H') in E. rewrite E. do 2 eexists. split; [reflexivity | ].
    repeat split.
    - apply has_node_dget. simpl. rewrite dget_app, H. simpl. rewrite seqb_refl. auto.
    - intros j Hj. unfold get_node. simpl. rewrite dget_app. simpl. rewrite (proj2 (seqb_neq j i)) by auto.
      destruct (dget j (g_nodes g)); auto.
  Qed.
  Lemma add_other : forall fac g d t, exists g', add_node fac g IdOther d t = (g', Err WRONG_NODE_ID_TYPE) /\
    g_nodes g' = g_nodes g.
  Proof.
    intros fac g d t. destruct (add_node_spec fac g IdOther d t) as (m & g1 & E1 & _ & _ & E). rewrite E. subst. eauto.
  Qed.
  Lemma remove_absent : forall g i, no_node g i -> exists m, remove_node_by_id g (IdStr i) = (g, Err (EValue m)).
  Proof. intros g i H. unfold remove_node_by_id. rewrite H. eauto. Qed.

  (** C14 *)
  Lemma edges_ok : forall g, reachable g ->
    (forall p c, edge g p c <-> edge_up g p c) /\
    (forall p c, edge g p c -> exists np nc, has_node g p np /\ has_node g c nc /\ allows np nc) /\
    (forall i, ~ edge g i i) /\
    (forall i n, has_node g i n -> n_id n = i /\ NoDup (n_children n) /\ NoDup (n_parents n)).
  Proof.
    intros g R. apply reachable_wf in R as W. pose proof W as (H1 & H2 & H3 & H4 & H5). repeat split.
    - intros H. apply edge_up_parents, H3, edge_children. auto.
    - intros H. apply edge_children, H3, edge_up_parents. auto.
    - intros p c H. apply edge_children in H. pose proof (wf_child_in g p c W H) as Hc.
      apply in_keys_dget in Hc as [nc Ec]. unfold children_of in H. destruct (dget p (g_nodes g)) as [np | ] eqn:Ep; [ | destruct H].
      exists np, nc. rewrite !has_node_dget. repeat split; auto. eapply H5; eauto.
    - intros i H. apply edge_children in H. eapply H4; eauto.
    - apply has_node_dget, H2 in H. tauto.
    - apply has_node_dget, H2 in H. tauto.
    - apply has_node_dget, H2 in H. tauto.
  Qed.

  (** C15 *)
  Lemma add_edge_iff : forall g p c, reachable g ->
    (exists g', add_edge g (IdStr p) (IdStr c) = (g', Ok tt)) <->
    exists np nc, has_node g p np /\ has_node g c nc /\ p <> c /\ allows np nc.
  Proof.
    intros g p c R. apply reachable_wf in R as W. rewrite add_edge_spec by auto.
    destruct (dget p (g_nodes g)) as [np | ] eqn:Ep; destruct (dget c (g_nodes g)) as [nc | ] eqn:Ec.
    - destruct (existsb (ntype_eqb (n_type nc)) (n_forbidden np)) eqn:Ea; [ | eqb_cases c p].
      + split; [intros [g' H]; discriminate | ]. intros (a & b & Ha & Hb & _ & H).
        apply has_node_dget in Ha. apply has_node_dget in Hb. unfold allows in H. congruence.
      + split; [intros [g' H]; discriminate | ]. subst. intros (a & b & _ & _ & H & _). congruence.
      + split; [ | eauto]. intros _. exists np, nc. rewrite !has_node_dget. auto.
    - split; [intros [g' H]; discriminate | ]. intros (a & b & _ & Hb & _). apply has_node_dget in Hb. congruence.
    - split; [intros [g' H]; discriminate | ]. intros (a & b & Ha & _). apply has_node_dget in Ha. congruence.
    - split; [intros [g' H]; discriminate | ]. intros (a & b & Ha & _). apply has_node_dget in Ha. congruence.
  Qed.
  Lemma add_edge_effect : forall g p c g', reachable g -> add_edge g (IdStr p) (IdStr c) = (g', Ok tt) ->
    (forall a b, edge g' a b <-> edge g a b \/ (a = p /\ b = c)) /\
    (forall i, option_map core (shown g' i) = option_map core (shown g i)) /\ ids g' = ids g.
  Proof.
    intros g p c g' R E. apply reachable_wf in R as W. rewrite add_edge_spec in E by auto.
    destruct (dget p (g_nodes g)) as [np | ] eqn:Ep; destruct (dget c (g_nodes g)) as [nc | ] eqn:Ec; try discriminate.
    destruct (existsb (ntype_eqb (n_type nc)) (n_forbidden np)) eqn:Ea; [discriminate | ]. eqb_cases c p; [discriminate | ].
    injection E as <-. split; [ | split].
    - intros a b. rewrite !edge_children, children_linked by auto. tauto.
    - intros i. unfold shown, get_node. rewrite dget_linked by auto.
      eqb_cases i c; [subst; rewrite Ec; auto | ]. eqb_cases i p; [subst; rewrite Ep; auto | auto].
    - apply ids_linked; auto.
  Qed.
  Lemma add_edge_fail : forall g p c g' e, reachable g -> add_edge g p c = (g', Err e) -> g' = g.
  Proof.
    intros g p c g' e R E. apply reachable_wf in R as W.
    destruct p as [ | p | ]; try (rewrite add_edge_nonstr in E by (left; discriminate); congruence).
    destruct c as [ | c | ]; try (rewrite add_edge_nonstr in E by (right; discriminate); congruence).
    rewrite add_edge_spec in E by auto.
    destruct (dget p (g_nodes g)) as [np | ]; destruct (dget c (g_nodes g)) as [nc | ]; try congruence.
    destruct (existsb (ntype_eqb (n_type nc)) (n_forbidden np)); try congruence. destruct (String.eqb c p); congruence.
  Qed.
  Lemma remove_edge_iff : forall g p c, reachable g ->
    (exists g', remove_edge g (IdStr p) (IdStr c) = (g', Ok tt)) <-> edge g p c.
  Proof.
    intros g p c R. apply reachable_wf in R as W. rewrite remove_edge_spec, edge_children by auto.
    destruct (smem c (children_of g p)) eqn:E.
    - apply smem_in in E. split; eauto.
    - apply smem_nin in E. split; [intros [g' H]; discriminate | contradiction].
  Qed.
  Lemma remove_edge_effect : forall g p c g', reachable g -> remove_edge g (IdStr p) (IdStr c) = (g', Ok tt) ->
    (forall a b, edge g' a b <-> edge g a b /\ ~ (a = p /\ b = c)) /\
    (forall i, option_map core (shown g' i) = option_map core (shown g i)) /\ ids g' = ids g.
  Proof.
    intros g p c g' R E. apply reachable_wf in R as W. rewrite remove_edge_spec in E by auto.
    destruct (smem c (children_of g p)) eqn:Es; [ | discriminate]. injection E as <-. apply smem_in in Es.
    assert (Hn : p <> c) by (intros ->; destruct W as (_ & _ & _ & H4 & _); eapply H4; eauto).
    split; [ | split].
    - intros a b. rewrite !edge_children, children_unlinked by auto. tauto.
    - intros i. unfold shown, get_node, unlinked. rewrite !dget_update. eqb_cases i c; [subst | ].
      + rewrite (proj2 (seqb_neq c p)) by auto. destruct (dget c (g_nodes g)); auto.
      + eqb_cases i p; [subst; destruct (dget p (g_nodes g)) | ]; auto.
    - unfold unlinked. rewrite !ids_update. auto.
  Qed.
  Lemma remove_edge_fail : forall g p c g' e, reachable g -> remove_edge g p c = (g', Err e) -> g' = g.
  Proof.
    intros g p c g' e R E. apply reachable_wf in R as W.
    destruct p as [ | p | ]; try (rewrite remove_edge_nonstr in E by (left; discriminate); congruence).
    destruct c as [ | c | ]; try (rewrite remove_edge_nonstr in E by (right; discriminate); congruence).
    rewrite remove_edge_spec in E by auto. destruct (smem c (children_of g p)); congruence.
  Qed.

  (** C16 *)
  Lemma remove_node_iff : forall g i, reachable g ->
    (exists g' n, remove_node_by_id g (IdStr i) = (g', Ok n)) <-> exists n, has_node g i n.
  Proof.
    intros g i R. apply reachable_wf in R as W. rewrite remove_node_spec by auto. unfold has_node, get_node.
    destruct (dget i (g_nodes g)) as [n | ]; [split; eauto | ].
    split; [intros (g' & n & H); discriminate | intros [n H]; discriminate].
  Qed.
  Lemma remove_node_effect : forall g i g' n, reachable g -> remove_node_by_id g (IdStr i) = (g', Ok n) ->
    has_node g i n /\ no_node g' i /\
    dkeys (g_nodes g') = filter (fun j => negb (String.eqb j i)) (dkeys (g_nodes g)) /\
    (forall j m, j <> i -> has_node g j m -> exists m', has_node g' j m' /\ core m' = core m /\
       n_children m' = filter (fun x => negb (String.eqb x i)) (n_children m) /\
       n_parents m' = filter (fun x => negb (String.eqb x i)) (n_parents m)).
  Proof.
    intros g i g' n R E. apply reachable_wf in R as W. rewrite remove_node_spec in E by auto.
    destruct (dget i (g_nodes g)) as [n0 | ] eqn:Ei; [ | discriminate]. injection E as <- <-.
    assert (Hs : forall l, drop i l = filter (fun x => negb (String.eqb x i)) l).
    { intros l. apply filter_ext. intros x. rewrite seqb_sym. auto. }
    split; [apply has_node_dget; auto | ]. split; [ | split].
    - apply no_node_dget. rewrite dget_removed, seqb_refl. auto.
    - change (dkeys (g_nodes (removed g i))) with (ids (removed g i)). rewrite ids_removed. apply filter_ext.
      intros x. rewrite seqb_sym. auto.
    - intros j m Hj Hm. apply has_node_dget in Hm. exists (without_parent i (without_child i m)). rewrite has_node_dget.
      rewrite dget_removed, (proj2 (seqb_neq j i)), Hm by auto. repeat split; simpl; auto.
  Qed.

  (** C17 *)
  Lemma head_iff : forall g h, head g h <-> In h (ids g) /\ parents_of g h = [].
  Proof.
    intros g h. unfold head. split.
    - intros (n & H & Hp). apply has_node_dget in H. unfold parents_of. rewrite H. split; auto. eapply dget_in_keys; eauto.
    - intros [Hi Hp]. apply in_keys_dget in Hi as [n Hn]. exists n. rewrite has_node_dget. split; auto.
      unfold parents_of in Hp. rewrite Hn in Hp. auto.
  Qed.
  Lemma tail_iff : forall g h, tail g h <-> In h (ids g) /\ children_of g h = [].
  Proof.
    intros g h. unfold tail. split.
    - intros (n & H & Hp). apply has_node_dget in H. unfold children_of. rewrite H. split; auto. eapply dget_in_keys; eauto.
    - intros [Hi Hp]. apply in_keys_dget in Hi as [n Hn]. exists n. rewrite has_node_dget. split; auto.
      unfold children_of in Hp. rewrite Hn in Hp. auto.
  Qed.
  Lemma node_iff : forall g i, (exists n, has_node g i n) <-> In i (ids g).
  Proof.
    intros g i. split.
    - intros [n H]. apply has_node_dget in H. eapply dget_in_keys; eauto.
    - intros H. apply in_keys_dget in H as [n H]. exists n. apply has_node_dget. auto.
  Qed.
  Lemma heads_exact : forall g, reachable g -> exists l, get_heads_id g = Ok l /\ NoDup l /\ forall x, In x l <-> head g x.
  Proof.
    intros g R. destruct (heads_spec g (reachable_wf g R)) as (l & E & Hn & H). exists l. repeat split; auto; intros Hx;
      [apply head_iff, H; auto | apply H, head_iff; auto].
  Qed.
  Lemma tails_exact : forall g, reachable g -> exists l, get_tails_id g = Ok l /\ NoDup l /\ forall x, In x l <-> tail g x.
  Proof.
    intros g R. destruct (tails_spec g (reachable_wf g R)) as (l & E & Hn & H). exists l. repeat split; auto; intros Hx;
      [apply tail_iff, H; auto | apply H, tail_iff; auto].
  Qed.

  (** C18 *)
  Lemma circular_reported : forall g, reachable g -> exists errs, validate g = Ok errs /\
    ((exists l, In (CIRCULAR_REFS l) errs) <-> exists c, cycle g c) /\
    (forall l, In (CIRCULAR_REFS l) errs -> exists c, cycle g c /\ incl c l) /\
    (forall l x, In (CIRCULAR_REFS l) errs -> In x l -> leads_to_cycle g x).
  Proof.
    intros g R. apply reachable_wf in R as W. destruct (validate_spec g W) as (c & u & Ec & Eu & E & Hc & Hu).
    eexists. split; [exact E | ].
    assert (K : forall l, In (CIRCULAR_REFS l) ((match c with [] => [] | _ => [CIRCULAR_REFS c] end) ++
                  (match u with [] => [] | _ => [UNCONNECTED_NODES u] end))%list <-> l = c /\ c <> []).
    { intros l. rewrite in_app_iff. destruct c as [ | x c]; simpl.
      - split; [ | intros [_ H]; congruence]. intros [[] | H]. destruct u; simpl in H; [destruct H | destruct H as [H | []]; discriminate].
      - split.
        + intros [[H | []] | H]; [injection H as <-; split; [auto | discriminate] | ].
          destruct u; simpl in H; [destruct H | destruct H as [H | []]; discriminate].
        + intros [-> _]. left; left; auto. }
    destruct (circular_spec g W) as (c' & Ec' & H1 & H2). rewrite Ec in Ec'. injection Ec' as <-.
    split; [ | split].
    - split.
      + intros [l Hl]. apply K in Hl as [-> Hne]. destruct (H2 Hne) as (cy & Hcy & _). eauto.
      + intros [cy Hcy]. exists c. apply K. split; auto. intros Hn. apply Hc in Hn. eapply Hn; eauto.
    - intros l Hl. apply K in Hl as [-> Hne]. auto.
    - intros l x Hl Hx. apply K in Hl as [-> Hne]. eapply circular_leads; eauto.
  Qed.

  Lemma circular_reported_leads : forall g errs l x, reachable g -> validate g = Ok errs ->
    In (CIRCULAR_REFS l) errs -> In x l -> leads_to_cycle g x.
  Proof.
    intros g errs l x R E Hl Hx. destruct (circular_reported g R) as (errs' & E' & _ & _ & H). rewrite E in E'.
    injection E' as <-. eauto.
  Qed.
  Lemma heads_list : forall g l x, reachable g -> get_heads_id g = Ok l -> head g x -> In x l.
  Proof.
    intros g l x R E H. destruct (heads_exact g R) as (l' & E' & _ & Hl). rewrite E in E'. injection E' as <-. apply Hl. auto.
  Qed.
  Lemma chain_into : forall g l (x y : string), chain g (l ++ [y])%list -> In x (tl (l ++ [y])%list) ->
    exists p, edge g p x /\ In p l.
  Proof.
    intros g l. induction l as [ | a l IH]; intros x y Hc Hx; [destruct Hx | ].
    simpl tl in Hx. destruct (l ++ [y])%list as [ | b l'] eqn:E; [destruct l; discriminate | ].
    change (chain g (a :: (l ++ [y])%list)) in Hc. rewrite E in Hc. destruct Hc as [H1 H2]. destruct Hx as [<- | Hx].
    - exists a. simpl; auto.
    - destruct (IH x y) as (p & Hp & Hi); [rewrite E; eauto | rewrite E; auto | ]. exists p. simpl; auto.
  Qed.
  Lemma cycle_pred : forall g c x, cycle g c -> In x c -> exists p, edge g p x /\ In p c.
  Proof.
    intros g c x (a & l & -> & Hc) Hin. apply (chain_into g (a :: l) x a Hc). simpl. apply in_app_iff.
    destruct Hin as [-> | ]; simpl; auto.
  Qed.
  Lemma only_parent_cycle : forall g x h c, reachable g -> head g h ->
    (exists n, has_node g x n /\ n_parents n = [h]) -> cycle g c -> ~ In x c.
  Proof.
    intros g x h c R (nh & Hh & Ph) (n & Hn & Pn) Hc Hi. destruct (edges_ok g R) as (Hs & _).
    destruct (cycle_pred g c x Hc Hi) as (p & Hp & Hpc). apply Hs in Hp as (n' & Hn' & Hin). unfold has_node in *.
    rewrite Hn in Hn'. injection Hn' as <-. rewrite Pn in Hin. destruct Hin as [<- | []].
    destruct (cycle_pred g c h Hc Hpc) as (q & Hq & _). apply Hs in Hq as (m & Hm & Hin). unfold has_node in *.
    rewrite Hh in Hm. injection Hm as <-. rewrite Ph in Hin. destruct Hin.
  Qed.

  (** C20, C21 *)
  Lemma ntype_eqb_eq : forall a b, ntype_eqb a b = true <-> a = b.
  Proof.
    intros [x | x] [y | y]; simpl; split; intros H; try discriminate.
    - apply Z.eqb_eq in H. congruence.
    - injection H as ->. apply Z.eqb_refl.
    - apply seqb_eq in H. congruence.
    - injection H as ->. apply seqb_refl.
  Qed.
  Lemma ntype_eqb_neq : forall a b, ntype_eqb a b = false <-> a <> b.
  Proof. intros a b. rewrite <- ntype_eqb_eq. destruct (ntype_eqb a b); split; congruence. Qed.
  Lemma bad_head_iff : forall g h, bad_head g h <-> bad_heads g h.
  Proof.
    intros g h. unfold bad_head, bad_heads. split.
    - intros (n & Hn & Hp & Ht). apply has_node_dget in Hn. split; [eapply dget_in_keys; eauto | ].
      split; [unfold parents_of; rewrite Hn; auto | ]. intros m Hm. rewrite Hn in Hm. injection Hm as <-. apply ntype_eqb_neq. auto.
    - intros (Hi & Hp & Ht). apply in_keys_dget in Hi as [n Hn]. exists n. rewrite has_node_dget. split; auto.
      unfold parents_of in Hp. rewrite Hn in Hp. split; auto. apply ntype_eqb_neq. auto.
  Qed.
  Lemma paths_exact : forall g s e d, reachable g -> valid g -> (exists n, has_node g s n) -> (exists n, has_node g e n) ->
    exists ps, get_all_paths g s e d = Ok ps /\ NoDup ps /\ forall l, In l ps <-> path g s e l /\ (Z.of_nat (length l) <= d)%Z.
  Proof.
    intros g s e d R [Ha Hb] Hs He. apply reachable_wf in R as W. apply all_paths_valid; auto; try (apply node_iff; auto).
    apply validate_valid; auto. split; auto. intros h. rewrite <- bad_head_iff. auto.
  Qed.
  Lemma paths_refused : forall g s e d, reachable g ->
    (exists c, cycle g c) \/ (exists h, bad_head g h) \/ no_node g s \/ no_node g e ->
    exists m, get_all_paths g s e d = Err (EValue m).
  Proof.
    intros g s e d R H. apply reachable_wf in R as W. apply all_paths_errors; auto.
    destruct H as [[c Hc] | [[h Hh] | [H | H]]].
    - left. intros Ha. eapply Ha; eauto.
    - right; left. exists h. apply bad_head_iff. auto.
    - right; right; left. apply no_node_dget, dget_none in H. auto.
    - right; right; right. apply no_node_dget, dget_none in H. auto.
  Qed.

  Lemma paths_returns : forall g s e d, reachable g ->
    (exists ps, get_all_paths g s e d = Ok ps) <->
    valid g /\ (exists n, has_node g s n) /\ (exists n, has_node g e n).
  Proof.
    intros g s e d R. apply reachable_wf in R as W. split.
    - intros [ps E].
      assert (K : forall P : Prop, (~ P -> (exists c, cycle g c) \/ (exists h, bad_head g h) \/ no_node g s \/ no_node g e) ->
                ~ ~ P).
      { intros P H Hn. destruct (paths_refused g s e d R (H Hn)) as [m Hm]. congruence. }
      assert (N : forall i, (exists n, has_node g i n) \/ no_node g i).
      { intros i. unfold has_node, no_node. simpl. destruct (dget i (g_nodes g)); eauto. }
      split; [split | split].
      + intros l Hl. refine (K (cycle g l -> False) _ _); [ | tauto]. intros _. eauto.
      + intros h Hh. refine (K (bad_head g h -> False) _ _); [ | tauto]. intros _. eauto.
      + destruct (N s); auto. exfalso. refine (K False _ _); tauto.
      + destruct (N e); auto. exfalso. refine (K False _ _); tauto.
    - intros (Hv & Hs & He). destruct (paths_exact g s e d R Hv Hs He) as (ps & E & _). eauto.
  Qed.
  Lemma valid_validate : forall g, reachable g -> validate g = Ok [] -> valid g.
  Proof.
    intros g R E. apply reachable_wf in R as W. apply validate_valid in E as [Ha Hb]; auto. split; auto.
    intros h. rewrite bad_head_iff. auto.
  Qed.

  (** C22 *)
  Lemma order_exact : forall g, reachable g -> exists l, sequential_order_of_execution g = Ok l /\
    (forall x, In x l <-> exists h, head g h /\ connected g h x) /\
    (forall x, In x l -> ~ head g x -> count_occ string_dec l x = 1) /\
    (forall x, count_occ string_dec l x <= 2) /\
    (NoDup l <-> forall h h', head g h -> head g h' -> connected g h h' -> h = h').
  Proof.
    intros g R. apply reachable_wf in R as W. destruct (seq_order_spec g W) as (l & E & H1 & H2 & H3 & H4).
    exists l. split; auto.
    assert (K : forall x, is_head g x <-> head g x) by (intros; rewrite head_iff; reflexivity).
    split; [ | split; [ | split; auto]].
    - intros x. rewrite H1. split; intros (h & Hh & Hc); exists h; split; auto; apply K; auto.
    - intros x Hx Hn. apply H2; auto. intros Hp. apply Hn. apply K. split; auto.
      apply H1 in Hx as (h & [Hh _] & Hc). eapply conn_in; eauto.
    - rewrite H4. split; intros H h h' Ha Hb; apply H; apply K; auto.
  Qed.
  Lemma order_covers : forall g l, reachable g -> acyclic g -> sequential_order_of_execution g = Ok l ->
    forall x, In x l <-> exists n, has_node g x n.
  Proof.
    intros g l R Ha E x. apply reachable_wf in R as W. destruct (seq_order_spec g W) as (l' & E' & H1 & _).
    rewrite E in E'. injection E' as <-. rewrite H1, node_iff. split.
    - intros (h & [Hh _] & Hc). eapply conn_in; eauto.
    - intros Hx. apply acyclic_head; auto.
  Qed.
  Lemma order_all : forall g, reachable g -> exists l, sequential_order_of_execution g = Ok l /\
    (forall x, In x l <-> exists h, head g h /\ connected g h x) /\
    (acyclic g -> forall x, In x l <-> exists n, has_node g x n) /\
    (forall x, In x l -> ~ head g x -> count_occ string_dec l x = 1) /\
    (forall x, count_occ string_dec l x <= 2) /\
    (NoDup l <-> forall h h', head g h -> head g h' -> connected g h h' -> h = h').
  Proof.
    intros g R. destruct (order_exact g R) as (l & E & H1 & H2 & H3 & H4). exists l.
    split; [auto | split; [auto | split; [ | auto]]]. intros Ha. apply order_covers; auto.
  Qed.
  Lemma order_forest : forall g, reachable g -> acyclic g -> (forall i n, has_node g i n -> length (n_parents n) <= 1) ->
    exists l, sequential_order_of_execution g = Ok l /\ topological g l.
  Proof.
    intros g R Ha Hf. apply reachable_wf in R as W. apply seq_forest_order; auto. intros x. unfold parents_of.
    destruct (dget x (g_nodes g)) as [n | ] eqn:E; [ | simpl; auto]. apply (Hf x). apply has_node_dget. auto.
  Qed.
End Api.
