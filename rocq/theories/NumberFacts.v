(** Proofs for C106 and C107. *)
From Verif Require Import PyBase PyFacts VersionFacts Graph SpecGraph SpecNumbers GraphFacts GraphHist GraphApi SpineGraph.
Open Scope string_scope.

Section Numbers.
  Context {D : Type}.
  Implicit Types (g : graph D).

  Lemma generate_least : forall g, exists m,
    generate_unique_id g = (mkGraph m (g_counter g) (g_nodes g), Ok (dec m)) /\ next_number g (g_gen g) m.
  Proof.
    intros g. unfold generate_unique_id.
    destruct (first_free (length (g_nodes g)) (g_nodes g) (N.succ (g_gen g))) as [m | ] eqn:E.
    - apply first_free_spec in E as (E1 & E2 & E3). exists m. split; [reflexivity | split; [lia | split]].
      + apply no_node_dget. apply dget_none. auto.
      + intros k Hk. assert (Hi : In (dec k) (dkeys (g_nodes g))) by (apply E3; lia). apply dmem_in in Hi. unfold dmem in Hi.
        unfold has_node, get_node. destruct (dget (dec k) (g_nodes g)) as [n | ]; [eauto | discriminate].
    - exfalso. eapply first_free_total; eauto.
  Qed.
  Lemma add_gen : forall fac g id data ty,
    g_gen (fst (add_node fac g id data ty)) = g_gen (fst (generate_unique_id g)) /\
    (forall n, snd (add_node fac g id data ty) = Ok n -> snd (generate_unique_id g) = Ok (n_order n) /\
       (id = IdNone -> n_id n = n_order n) /\ (forall s, id = IdStr s -> n_id n = s)).
  Proof.
    intros fac g id data ty. destruct (generate_spec g) as [m [E [Hm Hf]]].
    unfold add_node. rewrite E. cbn [fst snd g_nodes g_gen g_counter]. destruct id as [ | s | ].
    - destruct (fac ty) as [[t forb] | ]; cbn [fst snd g_gen]; split; auto; try discriminate.
      intros n Q. injection Q as <-. cbn. repeat split; auto. discriminate.
    - destruct (dmem s (g_nodes g)); [split; auto; discriminate | ].
      destruct (fac ty) as [[t forb] | ]; cbn [fst snd g_gen]; split; auto; try discriminate.
      intros n Q. injection Q as <-. cbn. repeat split; auto; try discriminate. intros s' Q. injection Q as <-. auto.
    - split; auto. discriminate.
  Qed.

  (** ** The calls that do not draw *)
  Lemma update_fields : forall i f g, g_gen (update i f g) = g_gen g /\ g_counter (update i f g) = g_counter g.
  Proof. intros i f g. unfold update. destruct (dget i (g_nodes g)); auto. Qed.
  Lemma unlink_fields : forall has upd x l g, g_gen (fst (unlink has upd x l g)) = g_gen g /\
    g_counter (fst (unlink has upd x l g)) = g_counter g.
  Proof.
    intros has upd x l. induction l as [ | y l IH]; intros g; simpl; auto.
    destruct (dget y (g_nodes g)); auto. destruct (smem x (has n)); auto.
    destruct (IH (update y upd g)) as [-> ->]. apply update_fields.
  Qed.
  Lemma undrawn : forall fac g op, draws op = false ->
    g_gen (fst (step fac g op)) = g_gen g /\ g_counter (fst (step fac g op)) = g_counter g.
  Proof.
    intros fac g op H. destruct op as [id data ty | p c | p c | id | ]; try discriminate; simpl.
    - unfold add_edge. destruct (get_node g p) as [[n1 | ] | ], (get_node g c) as [[n2 | ] | ]; auto; simpl.
      destruct (existsb _ _); auto. destruct (String.eqb (n_id n2) (n_id n1)); auto. destruct (String.eqb (n_id n1) (n_id n2)); auto.
    - unfold remove_edge. destruct (get_node g p) as [[n1 | ] | ], (get_node g c) as [[n2 | ] | ]; auto; simpl;
          destruct p, c; auto; simpl; repeat (destruct (smem _ _); simpl; auto); try apply update_fields;
          match goal with |- g_gen (update _ _ ?h) = _ /\ _ => destruct (update_fields s0 (without_parent s) h) as [-> ->]; apply update_fields end.
    - unfold remove_node_by_id. destruct (get_node g id) as [[n | ] | ]; auto. destruct id as [ | s | ]; auto.
      destruct (unlink_fields n_parents (without_parent s) s (n_children n) g) as [H1 H2].
      destruct (unlink n_parents (without_parent s) s (n_children n) g) as [g1 [u | e]]; auto.
      destruct (unlink_fields n_children (without_child s) s (n_parents n) g1) as [H3 H4].
      destruct (unlink n_children (without_child s) s (n_parents n) g1) as [g2 [u' | e]]; simpl in *; split; congruence.
  Qed.
  Lemma draws_next : forall fac g op, draws op = true ->
    exists m, next_number g (g_gen g) m /\ g_gen (fst (step fac g op)) = m /\
      forall s, In s (issued1 (op, snd (step fac g op))) -> s = dec m.
  Proof.
    intros fac g op H. destruct (generate_least g) as (m & E & L). exists m. split; [exact L | ].
    destruct op as [id data ty | p c | p c | id | ]; try discriminate; cbn [step].
    - destruct (add_gen fac g id data ty) as [H1 H2]. rewrite E in H1, H2. cbn [fst snd g_gen] in H1, H2.
      destruct (add_node fac g id data ty) as [g' [n | e]]; cbn [out_of fst snd] in *; split; auto.
      + destruct (H2 n eq_refl) as (Q & Q1 & _). injection Q as Q. intros s Hs. destruct id; try destruct Hs as [].
        * rewrite <- H0, (Q1 eq_refl). auto.
        * destruct H0.
      + intros s Hs. destruct id; destruct Hs.
    - rewrite E. cbn. split; auto. intros s [<- | []]. auto.
  Qed.

  (** ** The number of nodes added *)
  Lemma step_counter : forall fac g op,
    g_counter (fst (step fac g op)) = (g_counter g + if added1 (op, snd (step fac g op)) then 1 else 0)%N.
  Proof.
    intros fac g op. destruct (draws op) eqn:Hd.
    - destruct op as [id data ty | p c | p c | id | ]; try discriminate; cbn [step].
      + destruct (add_node_spec fac g id data ty) as (m & g1 & E1 & _ & _ & E). rewrite E. subst g1.
        destruct id as [ | s | ]; cbv zeta; [ | | cbn; lia].
        * destruct (smem (dec m) (ids g)); [cbn; lia | ]. destruct (fac ty) as [[t forb] | ]; cbn; lia.
        * destruct (smem s (ids g)); [cbn; lia | ]. destruct (fac ty) as [[t forb] | ]; cbn; lia.
      + destruct (generate_spec g) as (m & E & _). rewrite E. cbn. lia.
    - destruct (undrawn fac g op Hd) as [_ ->]. destruct op; try discriminate; cbn; lia.
  Qed.
  Lemma run_counter : forall fac ops g, g_counter (run fac g ops) = (g_counter g + N.of_nat (added (trace fac g ops)))%N.
  Proof.
    intros fac ops. unfold added. induction ops as [ | op ops IH]; intros g; cbn [trace]; [cbn; lia | ].
    pose proof (step_counter fac g op) as H. unfold run in *. cbn [fold_left]. rewrite IH, H.
    destruct (step fac g op) as [g' r]. cbn [fst snd filter]. destruct (added1 (op, r)); cbn [length]; lia.
  Qed.
  Lemma history_counter : forall fac ops, g_counter (run fac (@new_graph D) ops) = N.of_nat (added (trace fac new_graph ops)).
  Proof. intros. rewrite run_counter. reflexivity. Qed.

  (** ** Graphs that choose all ids *)
  Definition numbered g : Prop := forall s, In s (ids g) -> exists k, s = dec k /\ (1 <= k <= g_gen g)%N.
  Lemma ids_undrawn : forall fac g op, wf g -> draws op = false -> incl (ids (fst (step fac g op))) (ids g).
  Proof.
    intros fac g op W H s Hs. pose proof (step_lookup fac g op s (dget s (g_nodes g)) W eq_refl) as L.
    apply dmem_in in Hs. unfold dmem in Hs. apply dmem_in. unfold dmem. destruct (dget s (g_nodes g)); auto.
    destruct op as [id data ty | p c | p c | id | ]; try discriminate; cbn [seen] in L.
    - destruct (dget s (g_nodes (fst (step fac g (OpAddEdge p c))))); discriminate.
    - destruct (dget s (g_nodes (fst (step fac g (OpRemoveEdge p c))))); discriminate.
    - destruct (dget s (g_nodes (fst (step fac g (OpRemoveNode id))))); [ | discriminate].
      destruct id as [ | i | ]; try discriminate. destruct (snd _) in L; try discriminate. destruct (String.eqb i s); discriminate.
  Qed.
  Lemma numbered_next : forall g m, numbered g -> next_number g (g_gen g) m -> m = N.succ (g_gen g).
  Proof.
    intros g m H (H1 & _ & H3). destruct (N.eq_dec m (N.succ (g_gen g))) as [ | Hn]; auto. exfalso.
    destruct (H3 (N.succ (g_gen g))) as [n Hk]; [lia | ].
    assert (Hi : In (dec (N.succ (g_gen g))) (ids g)).
    { apply dmem_in. unfold dmem. unfold has_node, get_node in Hk. injection Hk as ->. auto. }
    apply H in Hi as (k & E & Hk'). apply dec_inj in E. lia.
  Qed.
  Lemma numbered_step : forall fac g op, (forall t, fac t <> None) -> wf g -> numbered g ->
    (forall i d t, op = OpAddNode i d t -> i = IdNone) ->
    numbered (fst (step fac g op)) /\
    issued1 (op, snd (step fac g op)) = (if draws op then [dec (N.succ (g_gen g))] else []) /\
    g_gen (fst (step fac g op)) = (if draws op then N.succ (g_gen g) else g_gen g).
  Proof.
    intros fac g op F W Hn Ho. destruct (draws op) eqn:Hd.
    - destruct (generate_least g) as (m & E & L). apply numbered_next in L; auto. subst m.
      destruct op as [id data ty | p c | p c | id | ]; try discriminate; cbn [step].
      + rewrite (Ho id data ty eq_refl) in *. unfold add_node. rewrite E. cbn [g_nodes g_gen g_counter].
        destruct (fac ty) as [[t forb] | ] eqn:Ef; [ | destruct (F ty Ef)]. cbn. repeat split; auto.
        intros s Hs. unfold ids in Hs. cbn [g_nodes g_gen] in *. apply in_dkeys_dset in Hs as [Hs | Hs].
        * eexists. split; [eauto | lia].
        * destruct (Hn s Hs) as (k & Ek & Hk). exists k. split; auto. lia.
      + rewrite E. cbn. repeat split; auto. intros s Hs. destruct (Hn s Hs) as (k & Ek & Hk). exists k. cbn. split; auto. lia.
    - pose proof (undrawn fac g op Hd) as [Hg _]. rewrite Hg. split; [ | split; auto].
      + intros s Hs. apply ids_undrawn in Hs; auto. rewrite Hg. auto.
      + destruct op as [id data ty | p c | p c | id | ]; try discriminate; auto.
  Qed.
  Lemma run_numbered : forall fac ops g, (forall t, fac t <> None) -> wf g -> numbered g -> no_own_ids ops ->
    issued (trace fac g ops) = map (fun k => dec (g_gen g + N.of_nat k)) (seq 1 (length (filter draws ops))).
  Proof.
    intros fac ops. induction ops as [ | op ops IH]; intros g F W Hn Ho; auto. cbn [trace filter].
    destruct (numbered_step fac g op F W Hn) as (N' & E & G).
    { intros i d t ->. eapply Ho. left. reflexivity. }
    pose proof (wf_step fac g op W) as W'. destruct (step fac g op) as [g' r]. cbn [fst snd] in *.
    unfold issued in *. cbn [flat_map]. rewrite E, IH; auto; [ | intros i d t H; eapply Ho; right; eauto].
    rewrite G. destruct (draws op); [ | reflexivity]. cbn [length seq map app]. f_equal; [f_equal; lia | ].
    rewrite <- (seq_shift _ 1), map_map. apply map_ext. intros k. f_equal. lia.
  Qed.
  Lemma wf_new : wf (@new_graph D).
  Proof.
    split; [constructor | ]. repeat split; try discriminate; cbn; auto; intros; try tauto; try contradiction; discriminate.
  Qed.
  Lemma new_numbered : forall fac ops, (forall t, fac t <> None) -> no_own_ids ops ->
    issued (trace fac (@new_graph D) ops) = map (fun k => dec (N.of_nat k)) (seq 1 (length (filter draws ops))).
  Proof.
    intros fac ops F H. rewrite (run_numbered fac ops new_graph F wf_new); auto. intros s [].
  Qed.

  (** ** Kinds *)
  Definition of_kind (n : node D) : Prop := exists k, In k five_kinds /\ n_type n = NTStr k /\
    forall k', In k' five_kinds -> existsb (ntype_eqb (NTStr k')) (n_forbidden n) = negb (smem k' (kind_children k)).
  Lemma factory_kind : forall t ty forb, spine_factory t = Some (ty, forb) ->
    exists k, t = Some (NTStr k) /\ In k five_kinds /\ ty = NTStr k /\
      forall k', In k' five_kinds -> existsb (ntype_eqb (NTStr k')) forb = negb (smem k' (kind_children k)).
  Proof.
    intros t ty forb E. unfold spine_factory in E.
    destruct t as [[z | s] | ]; try discriminate.
    assert (K : In s five_kinds).
    { unfold five_kinds. repeat (match type of E with
        | context [match ?x with EmptyString => _ | String _ _ => _ end] => destruct x; try discriminate
        | context [match ?a with Ascii.Ascii _ _ _ _ _ _ _ _ => _ end] => destruct a
        | context [if ?b then _ else _] => destruct b; try discriminate end); cbn; tauto. }
    exists s. split; auto. split; auto.
    destruct K as [<- | [<- | [<- | [<- | [<- | []]]]]]; cbn in E; injection E as <- <-; (split; [reflexivity | ]);
      intros k' [<- | [<- | [<- | [<- | [<- | []]]]]]; reflexivity.
  Qed.
  Lemma core_kind : forall n n', core (D := D) n = core n' -> of_kind n -> of_kind n'.
  Proof. intros n n' E. unfold core in E. injection E as _ _ E1 _ _ E2. unfold of_kind. rewrite <- E1, <- E2. auto. Qed.
  Lemma last_added_in : forall tr i n last, fold_left (seen (D := D) i) tr last = Some n ->
    last = Some n \/ exists op, In (op, Ok (OutNode n)) tr /\ exists a b c, op = OpAddNode a b c.
  Proof.
    intros tr i n. induction tr as [ | e tr IH]; intros last H; cbn [fold_left] in H; auto.
    apply IH in H as [H | (op & H & H')]; [ | right; exists op; split; [right; auto | auto]].
    destruct e as [op r]. destruct op as [a b c | a b | a b | a | ]; cbn [seen] in H; auto.
    - destruct r as [[n' | | ] | ]; auto. destruct (String.eqb (n_id n') i); auto.
      injection H as ->. right. exists (OpAddNode a b c). split; [left; auto | eauto].
    - destruct a as [ | j | ]; auto. destruct r; auto. destruct (String.eqb j i); [discriminate | auto].
  Qed.
  Lemma trace_added : forall fac ops g op n, In (op, Ok (OutNode n)) (trace (D := D) fac g ops) ->
    forall a b c, op = OpAddNode a b c -> exists t forb, fac c = Some (t, forb) /\ n_type n = t /\ n_forbidden n = forb.
  Proof.
    intros fac ops. induction ops as [ | o ops IH]; intros g op n H a b c E; cbn [trace] in H; [destruct H | ].
    destruct (step fac g o) as [g' r] eqn:Es. destruct H as [H | H]; [ | eapply IH; eauto].
    injection H as -> ->. subst op. cbn [step] in Es. unfold add_node in Es.
    destruct (generate_unique_id g) as [g1 [u | e]]; [ | discriminate].
    destruct (match a with IdNone => Ok u | IdStr s => _ | IdOther => _ end) as [i | e]; [ | discriminate].
    destruct (fac c) as [[t forb] | ]; [ | discriminate]. cbn in Es. injection Es as <- <-. eauto.
  Qed.
  Lemma spine_kinds : forall ops i n, has_node (run spine_factory (@new_graph D) ops) i n -> of_kind n.
  Proof.
    intros ops i n H. pose proof (history_lookup spine_factory ops i) as L. unfold has_node, get_node in H. injection H as H. rewrite H in L. cbn [option_map] in L.
    destruct (last_added _ i) as [n' | ] eqn:E; [ | discriminate]. injection L as L.
    apply last_added_in in E as [E | (op & E & a & b & c & ->)]; [discriminate | ].
    destruct (trace_added _ _ _ _ _ E _ _ _ eq_refl) as (t & forb & F & Q1 & Q2). apply factory_kind in F as (k & _ & Hk & -> & Hf).
    apply (core_kind n'); [unfold core; congruence | ]. exists k. rewrite Q2. auto.
  Qed.
  Lemma spine_kind : forall ops i n, has_node (run spine_factory (@new_graph D) ops) i n -> exists k, In k five_kinds /\ n_type n = NTStr k.
  Proof. intros ops i n H. destruct (spine_kinds _ _ _ H) as (k & H1 & H2 & _). eauto. Qed.
  Lemma spine_connect : forall ops p c np nc kp kc, let g := run spine_factory (@new_graph D) ops in
    has_node g p np -> has_node g c nc -> n_type np = NTStr kp -> n_type nc = NTStr kc ->
    ((exists g', add_edge g (IdStr p) (IdStr c) = (g', Ok tt)) <-> p <> c /\ In kc (kind_children kp)).
  Proof.
    intros ops p c np nc kp kc g Hp Hc Tp Tc.
    assert (R : reachable g) by (exists spine_factory, ops; reflexivity). rewrite (add_edge_iff _ _ _ R).
    destruct (spine_kinds _ _ _ Hp) as (k & Hk & Ek & Hf). destruct (spine_kinds _ _ _ Hc) as (k' & Hk' & Ek' & _).
    assert (k = kp) by congruence. assert (k' = kc) by congruence. subst k k'. specialize (Hf kc Hk').
    split.
    - intros (np' & nc' & H1 & H2 & Hn & Ha). split; auto. unfold has_node in *. assert (np' = np) by congruence. assert (nc' = nc) by congruence. subst.
      unfold allows in Ha. rewrite Tc, Hf in Ha. apply negb_false_iff in Ha. apply smem_in. auto.
    - intros (Hn & Hi). exists np, nc. repeat split; auto. unfold allows. rewrite Tc, Hf. apply negb_false_iff. apply smem_in. auto.
  Qed.
  Lemma spine_edges : forall ops p c, edge (run spine_factory (@new_graph D) ops) p c ->
    exists np nc kp kc, has_node (run spine_factory (@new_graph D) ops) p np /\ has_node (run spine_factory (@new_graph D) ops) c nc /\
      n_type np = NTStr kp /\ n_type nc = NTStr kc /\ In kc (kind_children kp).
  Proof.
    intros ops p c H. set (g := run spine_factory (@new_graph D) ops) in *.
    assert (R : reachable g) by (exists spine_factory, ops; reflexivity).
    destruct (edges_ok g R) as (_ & H2 & _). destruct (H2 p c H) as (np & nc & Hp & Hc & Ha).
    destruct (spine_kinds _ _ _ Hp) as (k & Hk & Ek & Hf). destruct (spine_kinds _ _ _ Hc) as (k' & Hk' & Ek' & _).
    exists np, nc, k, k'. repeat split; auto. unfold allows in Ha. rewrite Ek', (Hf k' Hk') in Ha. apply negb_false_iff in Ha. apply smem_in. auto.
  Qed.
End Numbers.
