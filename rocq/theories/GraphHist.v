(** Facts about histories of graph operations (C12, C13). *)
From Verif Require Import PyBase PyFacts VersionFacts Graph SpecGraph GraphFacts.
Open Scope string_scope.

Section Hist.
  Context {D : Type}.
  Implicit Types (g : graph D) (n : node D).

  Lemma generate_fresh : forall g, exists s g',
    generate_unique_id g = (g', Ok s) /\ no_node g s /\ g_nodes g' = g_nodes g.
  Proof.
    intros g. destruct (generate_spec g) as (m & E & _ & Hf). exists (dec m), (mkGraph m (g_counter g) (g_nodes g)).
    repeat split; auto. apply no_node_dget. apply dget_none. auto.
  Qed.

  Lemma add_none_ok : forall fac g data ty g' n, add_node fac g IdNone data ty = (g', Ok n) ->
    exists m, n_id n = dec m /\ (g_gen g < m)%N /\ g_gen g' = m /\ no_node g (n_id n).
  Proof.
    intros fac g data ty g' n H. destruct (add_node_spec fac g IdNone data ty) as (m & g1 & E1 & Hm & Hf & E).
    rewrite E in H. cbv zeta in H. rewrite (proj2 (smem_nin _ _) Hf) in H.
    destruct (fac ty) as [[t forb] | ]; [ | discriminate]. inversion H; subst. simpl. exists m. repeat split; auto.
    apply no_node_dget. apply dget_none. auto.
  Qed.

  Lemma none_issued : forall a b, exists l, [] = map dec l /\ NoDup l /\ forall m, In m l -> (a < m <= b)%N.
  Proof. intros. exists []. split; [auto | split; [constructor | simpl; tauto]]. Qed.

  Lemma step_gen : forall fac g op, (g_gen g <= g_gen (fst (step fac g op)))%N /\
    exists l, issued1 (op, snd (step fac g op)) = map dec l /\ NoDup l /\
      forall m, In m l -> (g_gen g < m <= g_gen (fst (step fac g op)))%N.
  Proof.
    intros fac g op. destruct op as [id data ty | p c | p c | id | ]; simpl.
    - destruct (add_node_spec fac g id data ty) as (m & g1 & E1 & Hm & Hf & E).
      assert (Hg : g_gen (fst (add_node fac g id data ty)) = m).
      { rewrite E. subst g1. destruct id; auto; cbv zeta; destruct (smem _ (ids g)); auto; destruct (fac ty) as [[? ?] | ]; auto. }
      rewrite Hg. split; [lia | ].
      destruct (add_node fac g id data ty) as [g' r] eqn:Er. simpl.
      destruct id as [ | s | ]; try apply none_issued.
      destruct r as [n | e]; [ | apply none_issued].
      apply add_none_ok in Er as (m' & H1 & H2 & H3 & _). simpl in Hg. exists [m']. simpl. rewrite H1.
      repeat split; auto.
      + constructor; auto. constructor.
      + destruct H as [<- | []]. auto.
      + destruct H as [<- | []]. lia.
    - assert (Hg : g_gen (fst (add_edge g p c)) = g_gen g).
      { unfold add_edge. destruct (get_node g p) as [[n1 | ] | ], (get_node g c) as [[n2 | ] | ]; auto; simpl.
        destruct (existsb _ _); auto. destruct (String.eqb (n_id n2) (n_id n1)); auto.
        destruct (String.eqb (n_id n1) (n_id n2)); auto. }
      rewrite Hg. split; [lia | ]. apply none_issued.
    - assert (Hu : forall i f (g : graph D), g_gen (update i f g) = g_gen g).
      { intros i f g0. unfold update. destruct (dget i (g_nodes g0)); auto. }
      assert (Hg : g_gen (fst (remove_edge g p c)) = g_gen g).
      { unfold remove_edge. destruct (get_node g p) as [[n1 | ] | ], (get_node g c) as [[n2 | ] | ]; auto; simpl;
          destruct p, c; auto; simpl; repeat (destruct (smem _ _); simpl; rewrite ?Hu; auto). }
      rewrite Hg. split; [lia | ]. apply none_issued.
    - assert (Hu : forall i f (g : graph D), g_gen (update i f g) = g_gen g).
      { intros i f g0. unfold update. destruct (dget i (g_nodes g0)); auto. }
      assert (Hl : forall has upd x l (g : graph D), g_gen (fst (unlink has upd x l g)) = g_gen g).
      { intros has upd x l. induction l as [ | y l IH]; intros g0; simpl; auto.
        destruct (dget y (g_nodes g0)); auto. destruct (smem x (has n)); auto. rewrite IH, Hu. auto. }
      assert (Hg : g_gen (fst (remove_node_by_id g id)) = g_gen g).
      { unfold remove_node_by_id. destruct (get_node g id) as [[n | ] | ]; auto. destruct id as [ | s | ]; auto.
        pose proof (Hl n_parents (without_parent s) s (n_children n) g) as H1.
        destruct (unlink n_parents (without_parent s) s (n_children n) g) as [g1 [u | e]]; auto.
        pose proof (Hl n_children (without_child s) s (n_parents n) g1) as H2.
        destruct (unlink n_children (without_child s) s (n_parents n) g1) as [g2 [u' | e]]; simpl in *; congruence. }
      rewrite Hg. split; [lia | ]. destruct id; apply none_issued.
    - destruct (generate_spec g) as (m & E & Hm & _). rewrite E. simpl. split; [lia | ]. exists [m]. simpl.
      repeat split; auto.
      + constructor; auto. constructor.
      + destruct H as [<- | []]. auto.
      + destruct H as [<- | []]. lia.
  Qed.

  Lemma issued_spec : forall fac ops g,
    exists l, issued (trace fac g ops) = map dec l /\ NoDup l /\ forall m, In m l -> (g_gen g < m)%N.
  Proof.
    intros fac ops. induction ops as [ | op ops IH]; intros g; cbn [trace].
    - exists []. repeat split; [constructor | simpl; tauto].
    - destruct (step_gen fac g op) as [H1 [l1 [E1 [N1 L1]]]].
      destruct (step fac g op) as [g' r] eqn:Er. simpl in H1, L1, E1. destruct (IH g') as [l2 [E2 [N2 L2]]].
      exists (l1 ++ l2)%list. unfold issued in *. simpl flat_map. simpl in E1. rewrite E1, E2, map_app. repeat split; auto.
      + apply NoDup_app_intro; auto. intros x Hx Hx2. apply L1 in Hx. apply L2 in Hx2. lia.
      + intros m Hm. apply in_app_iff in Hm as [Hm | Hm]; [apply L1 in Hm | apply L2 in Hm]; lia.
  Qed.
  Lemma issued_NoDup : forall fac g ops, NoDup (issued (trace fac g ops)).
  Proof.
    intros. destruct (issued_spec fac ops g) as [l [E [N _]]]. rewrite E.
    apply FinFun.Injective_map_NoDup; auto. intros a b. apply dec_inj.
  Qed.

  Lemma step_lookup : forall fac g op i last, wf g ->
    option_map core (dget i (g_nodes g)) = option_map core last ->
    option_map core (dget i (g_nodes (fst (step fac g op)))) =
    option_map core (seen i last (op, snd (step fac g op))).
  Proof.
    intros fac g op i last W HL. destruct op as [id data ty | p c | p c | id | ]; simpl.
    - destruct (add_node_spec fac g id data ty) as (m & g1 & E1 & Hm & Hf & E). rewrite E.
      assert (K : forall j, option_map core (dget i (g_nodes (fst
                (if smem j (ids g) then (g1, Err (EValue "ids need to be unique"))
                 else match fac ty with
                      | None => (g1, Err (EUnmodelled "a factory that returns None"))
                      | Some (t, forb) =>
                          let nd := mkNode j data t j (dec m) forb [] [] in
                          (mkGraph m (N.succ (g_counter g)) (g_nodes g ++ [(j, nd)])%list, Ok nd)
                      end)))) =
              option_map core
                match (match snd (if smem j (ids g) then (g1, Err (EValue "ids need to be unique"))
                 else match fac ty with
                      | None => (g1, Err (EUnmodelled "a factory that returns None"))
                      | Some (t, forb) =>
                          let nd := mkNode j data t j (dec m) forb [] [] in
                          (mkGraph m (N.succ (g_counter g)) (g_nodes g ++ [(j, nd)])%list, Ok nd)
                      end) with Ok a => Ok (OutNode a) | Err e => Err e end) with
                | Ok (OutNode n) => if n_id n =? i then Some n else last
                | Ok (OutId _) => last
                | _ => last
                end).
      { intros j. destruct (smem j (ids g)) eqn:Ej; simpl; [subst g1; auto | ].
        destruct (fac ty) as [[t forb] | ]; simpl; [ | subst g1; auto]. rewrite dget_app. simpl.
        apply smem_nin in Ej. eqb_cases j i.
        - subst. assert (dget i (g_nodes g) = None) as -> by (apply dget_none; auto). rewrite seqb_refl. auto.
        - rewrite (proj2 (seqb_neq i j)) by auto. rewrite <- HL. destruct (dget i (g_nodes g)); auto. }
      destruct id as [ | s | ]; [ | | simpl; subst g1; auto]; cbv zeta; rewrite K; clear K.
      + destruct (smem (dec m) (ids g)); auto; destruct (fac ty) as [[t forb] | ]; auto.
      + destruct (smem s (ids g)); auto; destruct (fac ty) as [[t forb] | ]; auto.
    - rewrite <- HL. destruct p as [ | p | ]; try (rewrite add_edge_nonstr by (left; discriminate); auto).
      destruct c as [ | c | ]; try (rewrite add_edge_nonstr by (right; discriminate); auto).
      rewrite add_edge_spec by auto.
      destruct (dget p (g_nodes g)) as [np | ] eqn:Ep; destruct (dget c (g_nodes g)) as [nc | ] eqn:Ec; auto.
      destruct (existsb (ntype_eqb (n_type nc)) (n_forbidden np)); auto. eqb_cases c p; auto. simpl fst.
      rewrite dget_linked by auto. eqb_cases i c; [subst; rewrite Ec; auto | ]. eqb_cases i p; [subst; rewrite Ep; auto | auto].
    - rewrite <- HL. destruct p as [ | p | ]; try (rewrite remove_edge_nonstr by (left; discriminate); auto).
      destruct c as [ | c | ]; try (rewrite remove_edge_nonstr by (right; discriminate); auto).
      rewrite remove_edge_spec by auto. destruct (smem c (children_of g p)); auto. simpl fst.
      unfold unlinked. rewrite !dget_update. eqb_cases i c; [subst | ].
      + eqb_cases c p; [subst | ]; [destruct (dget p (g_nodes g)) | destruct (dget c (g_nodes g))]; auto.
      + eqb_cases i p; [subst; destruct (dget p (g_nodes g)) | ]; auto.
    - destruct id as [ | s | ]; auto. rewrite remove_node_spec by auto.
      destruct (dget s (g_nodes g)) as [n | ] eqn:Es; simpl fst; simpl snd; auto.
      rewrite dget_removed. rewrite (seqb_sym s i). eqb_cases i s; auto. rewrite <- HL. destruct (dget i (g_nodes g)); auto.
    - destruct (generate_spec g) as (m & E & _). rewrite E. auto.
  Qed.

  Lemma run_lookup : forall fac ops g i last, wf g ->
    option_map core (dget i (g_nodes g)) = option_map core last ->
    option_map core (dget i (g_nodes (run fac g ops))) =
    option_map core (fold_left (seen i) (trace fac g ops) last).
  Proof.
    intros fac ops. induction ops as [ | op ops IH]; intros g i last W HL; cbn [trace]; auto.
    pose proof (step_lookup fac g op i last W HL) as H. pose proof (wf_step fac g op W) as W'.
    change (run fac g (op :: ops)) with (run fac (fst (step fac g op)) ops).
    destruct (step fac g op) as [g' r]. simpl in W', H. cbn [fold_left]. apply IH; auto.
  Qed.
  Lemma history_lookup : forall fac (ops : list (gop D)) i,
    option_map core (dget i (g_nodes (run fac new_graph ops))) =
    option_map core (last_added (trace fac new_graph ops) i).
  Proof. intros. apply run_lookup; [apply wf_new | auto]. Qed.
End Hist.
