(** Facts about sequential_order_of_execution (C22). *)
From Coq Require Import Relation_Operators Operators_Properties.
From Verif Require Import PyBase PyFacts Graph SpecGraph GraphFacts GraphSearch GraphPaths.
Open Scope string_scope.

Section Order.
  Context {D : Type}.
  Implicit Types (g : graph D) (n : node D).

  Definition unv (U w : list string) : nat := length (filter (fun x => negb (smem x w)) U).
  Lemma filter_len_le : forall (f h : string -> bool) l, (forall x, In x l -> f x = true -> h x = true) ->
    length (filter f l) <= length (filter h l).
  Proof.
    intros f h l. induction l as [ | x l IH]; intros H; simpl; auto.
    assert (IH' := IH (fun y Hy => H y (or_intror Hy))).
    destruct (f x) eqn:E; [rewrite (H x) by (auto; left; auto); simpl; lia | destruct (h x); simpl; lia].
  Qed.
  Lemma filter_len_lt : forall (f h : string -> bool) l y, (forall x, In x l -> f x = true -> h x = true) ->
    In y l -> f y = false -> h y = true -> length (filter f l) < length (filter h l).
  Proof.
    intros f h l. induction l as [ | x l IH]; intros y H Hy Hf Hh; [destruct Hy | ]. simpl.
    assert (H' : forall x, In x l -> f x = true -> h x = true) by (intros z Hz; apply H; right; auto).
    destruct Hy as [<- | Hy].
    - rewrite Hf, Hh. simpl. pose proof (filter_len_le f h l H'). lia.
    - pose proof (IH y H' Hy Hf Hh). destruct (f x) eqn:E; [rewrite (H x) by (auto; left; auto); simpl; lia | destruct (h x); simpl; lia].
  Qed.
  Lemma unv_mono : forall U w w', incl w w' -> unv U w' <= unv U w.
  Proof.
    intros U w w' H. apply filter_len_le. intros x _ E. apply negb_true_iff, smem_nin in E.
    apply negb_true_iff, smem_nin. auto.
  Qed.
  Lemma unv_lt : forall U w i, In i U -> ~ In i w -> unv U (i :: w) < unv U w.
  Proof.
    intros U w i Hi Hw. apply filter_len_lt with (y := i); auto.
    - intros x _ E. apply negb_true_iff, smem_nin in E. apply negb_true_iff, smem_nin. intros H. apply E. right; auto.
    - apply negb_false_iff, smem_in. left; auto.
    - apply negb_true_iff, smem_nin. auto.
  Qed.
  Lemma unv_len : forall U w, unv U w <= length U.
  Proof. intros. unfold unv. induction U as [ | x U IH]; simpl; auto. destruct (negb (smem x w)); simpl; lia. Qed.

  (** Weakly connected. *)
  Definition conn g := clos_refl_sym_trans string (edge g).
  Lemma conn_edge : forall g x y, edge g x y -> conn g x y.
  Proof. intros. apply rst_step. auto. Qed.
  Lemma conn_refl : forall g x, conn g x x.
  Proof. intros. apply rst_refl. Qed.
  Lemma conn_sym : forall g x y, conn g x y -> conn g y x.
  Proof. intros. apply rst_sym. auto. Qed.
  Lemma conn_trans : forall g x y z, conn g x y -> conn g y z -> conn g x z.
  Proof. intros. eapply rst_trans; eauto. Qed.

  Definition neighbour g x y := In y (parents_of g x) \/ In y (children_of g x).
  Lemma neighbour_conn : forall g x y, wf g -> neighbour g x y -> conn g x y.
  Proof.
    intros g x y W [H | H].
    - apply W in H. apply conn_sym, conn_edge, edge_children. auto.
    - apply conn_edge, edge_children. auto.
  Qed.
  Lemma neighbour_sym : forall g x y, wf g -> neighbour g x y -> neighbour g y x.
  Proof. intros g x y W [H | H]; [right | left]; apply W; auto. Qed.
  Lemma conn_closed : forall g (S : string -> Prop), wf g -> (forall x y, S x -> neighbour g x y -> S y) ->
    forall x y, conn g x y -> (S x <-> S y).
  Proof.
    intros g S W HS x y H. induction H.
    - apply edge_children in H. split; intros Hs.
      + apply (HS x); auto. right; auto.
      + apply (HS y); auto. left. apply W. auto.
    - tauto.
    - tauto.
    - tauto.
  Qed.

  (** What a visit appends. *)
  Definition block g (roots : list string) (v v' new : list string) : Prop :=
    NoDup new /\ incl new (ids g) /\ (forall x, In x v' <-> In x v \/ In x new) /\
    (forall x y, In x new -> neighbour g x y -> In y v') /\
    (forall x, In x new -> exists i, In i roots /\ conn g i x).

  Lemma seq_visit_ok : forall g, wf g -> forall fuel v r id, In id (ids g) -> unv (ids g) (id :: v) < fuel ->
    exists v' new, seq_visit fuel g (v, r) id = Ok (v', (r ++ new)%list) /\ block g [id] v v' new /\
      In id new /\ forall x, In x new -> x = id \/ ~ In x v.
  Proof.
    intros g W. induction fuel as [ | fuel IH]; intros v r id Hid Hf; [lia | ]. cbn [seq_visit].
    destruct (in_keys_dget _ _ Hid) as [n En]. rewrite En. cbn [fst snd].
    assert (Hch : children_of g id = n_children n) by (unfold children_of; rewrite En; auto).
    assert (Hpa : parents_of g id = n_parents n) by (unfold parents_of; rewrite En; auto).
    rewrite <- Hch, <- Hpa.
    (* a loop over related nodes *)
    assert (L : forall l v1 r1, (forall i, In i l -> In i (ids g)) -> incl (id :: v) v1 ->
      exists v2 new, foldM (fun st i => if smem i (fst st) then Ok st else seq_visit fuel g st i) (v1, r1) l =
          Ok (v2, (r1 ++ new)%list) /\ block g l v1 v2 new /\ incl l v2 /\ (forall x, In x new -> ~ In x v1)).
    { induction l as [ | i l IHl]; intros v1 r1 Hl Hv; cbn [foldM].
      - exists v1, []. rewrite app_nil_r. split; auto. split; [ | split; [intros x [] | intros x []]].
        split; [constructor | ]. split; [intros x [] | ]. split; [simpl; tauto | ]. split; [intros x y [] | intros x []].
      - cbn [fst]. destruct (smem i v1) eqn:Ei.
        + apply smem_in in Ei. cbn [bind]. destruct (IHl v1 r1) as (v2 & new & E & (B1 & B2 & B3 & B4 & B5) & Hi & Hd); auto.
          { intros j Hj; apply Hl; right; auto. }
          exists v2, new. split; auto. split; [ | split; auto].
          * split; auto. split; auto. split; auto. split; auto. intros x Hx. apply B5 in Hx as (j & Hj & Hc). exists j. split; auto. right; auto.
          * intros x [<- | Hx]; auto. apply B3. auto.
        + apply smem_nin in Ei.
          destruct (IH v1 r1 i) as (v2 & new & E & (B1 & B2 & B3 & B4 & B5) & Hin & Hnew).
          { apply Hl. left; auto. }
          { pose proof (unv_lt (ids g) v1 i (Hl i (or_introl eq_refl)) Ei). pose proof (unv_mono (ids g) _ _ Hv). lia. }
          rewrite E. cbn [bind].
          destruct (IHl v2 (r1 ++ new)%list) as (v3 & new2 & E2 & (C1 & C2 & C3 & C4 & C5) & Hi2 & Hd2); auto.
          { intros j Hj; apply Hl; right; auto. }
          { intros x Hx. apply B3. left. auto. }
          exists v3, (new ++ new2)%list. rewrite E2, <- app_assoc. split; auto.
          split; [ | split].
          * split; [apply NoDup_app_intro; auto; intros x H1 H2; apply (Hd2 x H2); apply B3; auto | ].
            split; [intros x Hx; apply in_app_iff in Hx as [Hx | Hx]; auto | ].
            split; [intros x; rewrite C3, B3, in_app_iff; tauto | ].
            split.
            -- intros x y Hx Hn. apply in_app_iff in Hx as [Hx | Hx]; [ | eauto]. apply C3. left. eauto.
            -- intros x Hx. apply in_app_iff in Hx as [Hx | Hx].
               ++ apply B5 in Hx as (j & [<- | []] & Hc). exists i. split; auto. left; auto.
               ++ apply C5 in Hx as (j & Hj & Hc). exists j. split; auto. right; auto.
          * intros x [<- | Hx]; auto. apply C3. left. apply B3. auto.
          * intros x Hx. apply in_app_iff in Hx as [Hx | Hx].
            -- destruct (Hnew x Hx) as [-> | H]; auto.
            -- intros H. apply (Hd2 x Hx). apply B3. auto. }
    destruct (L (parents_of g id) (id :: v) r) as (v1 & n1 & E1 & (B1 & B2 & B3 & B4 & B5) & I1 & D1); auto using incl_refl.
    { intros i. apply wf_parent_in. auto. }
    rewrite E1. cbn [bind fst snd].
    destruct (L (children_of g id) v1 ((r ++ n1) ++ [id])%list) as (v2 & n2 & E2 & (C1 & C2 & C3 & C4 & C5) & I2 & D2); auto.
    { intros i. apply wf_child_in. auto. }
    { intros x Hx. apply B3. auto. }
    exists v2, (n1 ++ id :: n2)%list.
    rewrite E2. rewrite <- !app_assoc. simpl app. split; auto.
    assert (Hid1 : In id v1) by (apply B3; left; left; auto).
    split; [ | split].
    - split; [ | split; [ | split; [ | split]]].
      + apply NoDup_app_intro; auto.
        * constructor; auto. intros H. apply (D2 id H). auto.
        * intros x Hx [<- | Hx2]; [apply (D1 id Hx); left; auto | ]. apply (D2 x Hx2). apply B3. auto.
      + intros x Hx. apply in_app_iff in Hx as [Hx | [<- | Hx]]; auto.
      + intros x. rewrite C3, B3, in_app_iff. simpl. tauto.
      + intros x y Hx Hn. apply in_app_iff in Hx as [Hx | [<- | Hx]].
        * apply C3. left. eauto.
        * destruct Hn as [Hn | Hn]; [apply C3; left; auto | auto].
        * eauto.
      + intros x Hx. exists id. split; [left; auto | ]. apply in_app_iff in Hx as [Hx | [<- | Hx]].
        * apply B5 in Hx as (j & Hj & Hc). eapply conn_trans; eauto. apply neighbour_conn; auto. left; auto.
        * apply conn_refl.
        * apply C5 in Hx as (j & Hj & Hc). eapply conn_trans; eauto. apply neighbour_conn; auto. right; auto.
    - apply in_app_iff. right. left. auto.
    - intros x Hx. apply in_app_iff in Hx as [Hx | [<- | Hx]]; auto.
      + right. intros H. apply (D1 x Hx). right; auto.
      + right. intros H. apply (D2 x Hx). apply B3. left; right; auto.
  Qed.

  (** A visited node whose neighbours are visited is only appended. *)
  Lemma seq_visit_again : forall g fuel v r id, In id (ids g) -> (forall y, neighbour g id y -> In y v) ->
    seq_visit (S fuel) g (v, r) id = Ok (id :: v, (r ++ [id])%list).
  Proof.
    intros g fuel v r id Hid Hn. cbn [seq_visit]. destruct (in_keys_dget _ _ Hid) as [n En]. rewrite En. cbn [fst snd].
    assert (L : forall l r1, incl l v ->
      foldM (fun st i => if smem i (fst st) then Ok st else seq_visit fuel g st i) (id :: v, r1) l = Ok (id :: v, r1)).
    { induction l as [ | i l IHl]; intros r1 Hl; cbn [foldM]; auto.
      assert (E : smem i (fst (id :: v, r1)) = true) by (apply smem_in; right; apply Hl; left; auto).
      rewrite E. cbn [bind]. apply IHl. intros x Hx; apply Hl; right; auto. }
    rewrite L; [cbn [bind fst snd]; apply L | ].
    - intros x Hx. apply Hn. right. unfold children_of. rewrite En. auto.
    - intros x Hx. apply Hn. left. unfold parents_of. rewrite En. auto.
  Qed.

  Notation count l x := (count_occ string_dec l x).
  Lemma count_NoDup : forall (l : list string) x, NoDup l -> In x l -> count l x = 1.
  Proof.
    intros l x Hn Hx. pose proof (proj1 (NoDup_count_occ string_dec l) Hn x).
    pose proof (proj1 (count_occ_In string_dec l x) Hx). lia.
  Qed.
  Lemma count_nin : forall (l : list string) x, ~ In x l -> count l x = 0.
  Proof. intros. apply count_occ_not_In. auto. Qed.

  (** The state after visiting the heads hs. *)
  Definition oinv g (hs : list string) (st : list string * list string) : Prop :=
    (forall x, In x (fst st) <-> In x (snd st)) /\
    (forall x, In x (snd st) <-> exists h, In h hs /\ conn g h x) /\
    (forall x, In x (snd st) -> ~ In x hs -> count (snd st) x = 1) /\
    (forall x, count (snd st) x <= 2) /\
    (NoDup (snd st) <-> forall h h', In h hs -> In h' hs -> conn g h h' -> h = h').

  Lemma heads_fold : forall g, wf g -> forall hs done v r, NoDup (done ++ hs) -> incl (done ++ hs) (ids g) ->
    (forall h, In h (done ++ hs) -> In h (ids g)) ->
    (forall h, In h hs -> count r h <= 1) -> oinv g done (v, r) ->
    exists v' r', foldM (seq_visit (S (S (length (g_nodes g)))) g) (v, r) hs = Ok (v', r') /\
      oinv g (done ++ hs)%list (v', r').
  Proof.
    intros g W. induction hs as [ | h hs IH]; intros done v r Hn Hi Hids Hcnt (O1 & O2 & O3 & O4 & O5); cbn [foldM].
    - exists v, r. rewrite app_nil_r. split; [auto | split; [auto | split; [auto | auto]]].
    - cbn [fst snd] in *.
      assert (Hh : In h (ids g)) by (apply Hi, in_app_iff; right; left; auto).
      assert (Hhd : ~ In h done).
      { intros H. apply NoDup_app_inv in Hn as (_ & _ & Hn). apply (Hn h); auto. left; auto. }
      assert (Hhs : ~ In h hs).
      { apply NoDup_app_inv in Hn as (_ & Hn & _). inversion Hn; auto. }
      assert (Happ : (done ++ h :: hs)%list = ((done ++ [h]) ++ hs)%list) by (rewrite <- app_assoc; auto).
      destruct (in_dec string_dec h r) as [Hv | Hv].
      + (* the component was visited before *)
        rewrite seq_visit_again; auto.
        2:{ intros y Hy. apply O1, O2. apply O2 in Hv as (k & Hk & Hc). exists k. split; auto.
            eapply conn_trans; eauto. apply neighbour_conn; auto. }
        cbn [bind]. rewrite Happ. apply IH; auto; try (rewrite <- Happ; auto).
        * intros k Hk. rewrite count_occ_app. simpl. destruct (string_dec h k) as [-> | _]; [contradiction | ].
          specialize (Hcnt k (or_intror Hk)). lia.
        * pose proof Hv as Hv2. apply O2 in Hv2 as (k & Hk & Hck).
          repeat split; cbn [fst snd].
          -- intros [<- | H]; apply in_app_iff; [right; left; auto | left; apply O1; auto].
          -- intros H. apply in_app_iff in H as [H | [<- | []]]; [right; apply O1; auto | left; auto].
          -- intros H. apply in_app_iff in H as [H | [<- | []]].
             ++ apply O2 in H as (j & Hj & Hc). exists j. split; auto. apply in_app_iff. auto.
             ++ exists h. split; [apply in_app_iff; right; left; auto | apply conn_refl].
          -- intros (j & Hj & Hc). apply in_app_iff. left. apply O2. apply in_app_iff in Hj as [Hj | [<- | []]]; eauto.
             exists k. split; auto. eapply conn_trans; eauto.
          -- intros x Hx Hnd. rewrite in_app_iff in Hnd. rewrite count_occ_app. simpl.
             destruct (string_dec h x) as [-> | Hne]; [exfalso; apply Hnd; right; left; auto | ].
             apply in_app_iff in Hx as [Hx | [<- | []]]; [ | congruence]. rewrite O3; auto.
          -- intros x. rewrite count_occ_app. simpl. destruct (string_dec h x) as [-> | Hne].
             ++ specialize (Hcnt x (or_introl eq_refl)). lia.
             ++ specialize (O4 x). lia.
          -- intros Hnd. exfalso. apply NoDup_app_inv in Hnd as (_ & _ & Hnd). apply (Hnd h); auto. left; auto.
          -- intros Hall. exfalso. apply Hhd. rewrite <- (Hall k h); auto; apply in_app_iff; auto. right; left; auto.
      + (* a new component *)
        destruct (seq_visit_ok g W (S (S (length (g_nodes g)))) v r h) as (v' & new & E & (B1 & B2 & B3 & B4 & B5) & Hin & Hnew); auto.
        { pose proof (unv_len (ids g) (h :: v)). rewrite ids_length in *. lia. }
        rewrite E. cbn [bind].
        assert (Hdis : forall x, In x new -> ~ In x r).
        { intros x Hx Hr. destruct (Hnew x Hx) as [-> | H]; [contradiction | ]. apply H. apply O1. auto. }
        assert (Hcomp : forall x, In x new <-> conn g h x).
        { intros x. split.
          - intros Hx. apply B5 in Hx as (j & [<- | []] & Hc). auto.
          - intros Hc.
            assert (HS : forall y z, In y new -> neighbour g y z -> In z new).
            { intros y z Hy Hz. pose proof (B4 y z Hy Hz) as H. apply B3 in H as [H | H]; auto. exfalso.
              apply (Hdis y Hy). apply O1, O2 in H as (k & Hk & Hkc). apply O2. exists k. split; auto.
              eapply conn_trans; eauto. apply conn_sym, neighbour_conn; auto. }
            apply (conn_closed g (fun y => In y new) W HS h x Hc). auto. }
        rewrite Happ. apply IH; auto; try (rewrite <- Happ; auto).
        * intros k Hk. rewrite count_occ_app. destruct (in_dec string_dec k new) as [Hkn | Hkn].
          -- rewrite (count_NoDup new) by auto. rewrite (count_nin r) by auto. auto.
          -- rewrite (count_nin new) by auto. specialize (Hcnt k (or_intror Hk)). lia.
        * repeat split; cbn [fst snd].
          -- intros H. apply B3 in H. apply in_app_iff. rewrite <- O1. auto.
          -- intros H. apply B3. apply in_app_iff in H. rewrite O1. auto.
          -- intros H. apply in_app_iff in H as [H | H].
             ++ apply O2 in H as (j & Hj & Hc). exists j. split; auto. apply in_app_iff. auto.
             ++ exists h. split; [apply in_app_iff; right; left; auto | apply Hcomp; auto].
          -- intros (j & Hj & Hc). apply in_app_iff. apply in_app_iff in Hj as [Hj | [<- | []]].
             ++ left. apply O2. eauto.
             ++ right. apply Hcomp. auto.
          -- intros x Hx Hnd. rewrite in_app_iff in Hnd. rewrite count_occ_app. apply in_app_iff in Hx as [Hx | Hx].
             ++ rewrite O3 by tauto. rewrite count_nin by (intros H; apply (Hdis x); auto). auto.
             ++ rewrite (count_nin r) by auto. apply count_NoDup; auto.
          -- intros x. rewrite count_occ_app. destruct (in_dec string_dec x new) as [Hkn | Hkn].
             ++ rewrite (count_NoDup new) by auto. rewrite (count_nin r) by auto. lia.
             ++ rewrite (count_nin new) by auto. specialize (O4 x). lia.
          -- intros Hnd k k' Hk Hk' Hc. apply NoDup_app_inv in Hnd as (Hnd & _ & _).
             apply in_app_iff in Hk as [Hk | [<- | []]]; apply in_app_iff in Hk' as [Hk' | [<- | []]]; auto.
             ++ apply O5; auto.
             ++ exfalso. apply Hv. apply O2. eauto.
             ++ exfalso. apply Hv. apply O2. exists k'. split; auto. apply conn_sym; auto.
          -- intros Hall. apply NoDup_app_intro; auto; [ | intros x H1 H2; apply (Hdis x); auto].
             apply O5. intros k k' Hk Hk'. apply Hall; apply in_app_iff; auto.
  Qed.

  Definition is_head g x := In x (ids g) /\ parents_of g x = [].

  Lemma seq_order_spec : forall g, wf g -> exists l, sequential_order_of_execution g = Ok l /\
    (forall x, In x l <-> exists h, is_head g h /\ conn g h x) /\
    (forall x, In x l -> parents_of g x <> [] -> count l x = 1) /\
    (forall x, count l x <= 2) /\
    (NoDup l <-> forall h h', is_head g h -> is_head g h' -> conn g h h' -> h = h').
  Proof.
    intros g W. unfold sequential_order_of_execution. destruct (heads_spec g W) as (hs & E & Hn & Hh).
    rewrite E. cbn [bind].
    destruct (heads_fold g W hs [] [] []) as (v & r & Er & (O1 & O2 & O3 & O4 & O5)).
    - auto.
    - intros x Hx. apply Hh in Hx. tauto.
    - intros x Hx. apply Hh in Hx. tauto.
    - intros. simpl. lia.
    - split; [simpl; tauto | ]. split; [ | split; [simpl; tauto | split; [simpl; auto | ]]]; cbn [snd].
      + intros x. split; [intros [] | intros (h & [] & _)].
      + split; [intros _ h h' [] | constructor].
    - rewrite Er. cbn [bind snd fst app] in *. exists r. split; auto. split; [ | split; [ | split]].
      + intros x. rewrite O2. unfold is_head. split; intros (h & H1 & H2); exists h; split; auto; apply Hh; auto.
      + intros x Hx Hp. apply O3; auto. intros H. apply Hh in H. tauto.
      + auto.
      + rewrite O5. unfold is_head. split; intros H h h' H1 H2; apply H; apply Hh; auto.
  Qed.

  (** In an acyclic graph every node has a head above it. *)
  Lemma up_or_long : forall g, wf g -> forall k x, In x (ids g) ->
    (exists h, is_head g h /\ conn g h x) \/ exists l, length l = k /\ chain g (l ++ [x])%list /\ incl (l ++ [x])%list (ids g).
  Proof.
    intros g W. induction k as [ | k IH]; intros x Hx.
    - right. exists []. simpl. repeat split; auto. intros y [<- | []]; auto.
    - destruct (parents_of g x) as [ | p ps] eqn:Ep.
      + left. exists x. split; [split; auto | apply conn_refl].
      + assert (Hp : In p (parents_of g x)) by (rewrite Ep; left; auto).
        destruct (IH p) as [(h & Hh & Hc) | (l & Hl & Hc & Hi)]; [eapply wf_parent_in; eauto | | ].
        * left. exists h. split; auto. eapply conn_trans; eauto. apply neighbour_conn; auto. right. apply W. auto.
        * right. exists (l ++ [p])%list. rewrite app_length, <- app_assoc. simpl. split; [lia | ]. split.
          -- apply chain_snoc; auto. apply edge_children, W. auto.
          -- intros y Hy. apply in_app_iff in Hy as [Hy | [<- | [<- | []]]]; auto; apply Hi, in_app_iff; simpl; auto.
  Qed.
  Lemma acyclic_head : forall g x, wf g -> acyclic g -> In x (ids g) -> exists h, is_head g h /\ conn g h x.
  Proof.
    intros g x W Ha Hx. destruct (up_or_long g W (length (ids g)) x Hx) as [H | (l & Hl & Hc & Hi)]; auto. exfalso.
    pose proof (chain_NoDup g _ Ha Hc) as Hn. pose proof (NoDup_incl_len _ _ Hn Hi) as HL. rewrite app_length in HL.
    simpl in HL. lia.
  Qed.
  Lemma conn_in : forall g h x, wf g -> conn g h x -> In h (ids g) -> In x (ids g).
  Proof.
    intros g h x W Hc. apply (conn_closed g (fun y => In y (ids g)) W) in Hc; [tauto | ].
    intros y z Hy [Hz | Hz]; [eapply wf_parent_in | eapply wf_child_in]; eauto.
  Qed.

  (** Forests *)
  Definition ordered g (r : list string) : Prop :=
    forall a x b, r = (a ++ x :: b)%list -> forall p, In p (parents_of g x) -> In p a.
  Lemma ordered_snoc : forall g r x, ordered g r -> incl (parents_of g x) r -> ordered g (r ++ [x])%list.
  Proof.
    intros g r x Ho Hi a y b E p Hp. destruct b as [ | z b'].
    - apply app_inj_tail in E as [-> ->]. auto.
    - destruct (exists_last (l := z :: b')) as (b2 & w & Eb); [discriminate | ]. rewrite Eb in E.
      rewrite app_comm_cons, app_assoc in E. apply app_inj_tail in E as [E _]. eapply Ho; eauto.
  Qed.
  Lemma seq_forest : forall g, wf g -> (forall x, length (parents_of g x) <= 1) ->
    forall fuel v r id st', (forall x, In x v <-> In x r) -> ordered g r -> incl (parents_of g id) r ->
    seq_visit fuel g (v, r) id = Ok st' ->
    (forall x, In x (fst st') <-> In x (snd st')) /\ ordered g (snd st') /\ incl r (snd st').
  Proof.
    intros g W Hf. induction fuel as [ | fuel IH]; intros v r id st' Hv Ho Hp E; [discriminate | ].
    cbn [seq_visit] in E. destruct (dget id (g_nodes g)) as [n | ] eqn:En; [ | discriminate]. cbn [fst snd] in E.
    assert (Hch : children_of g id = n_children n) by (unfold children_of; rewrite En; auto).
    assert (Hpa : parents_of g id = n_parents n) by (unfold parents_of; rewrite En; auto).
    rewrite <- Hpa, <- Hch in E.
    assert (L1 : forall l, incl l r ->
      foldM (fun st i => if smem i (fst st) then Ok st else seq_visit fuel g st i) (id :: v, r) l = Ok (id :: v, r)).
    { induction l as [ | i l IHl]; intros Hl; cbn [foldM]; auto.
      assert (Ei : smem i (fst (id :: v, r)) = true) by (apply smem_in; right; apply Hv, Hl; left; auto).
      rewrite Ei. cbn [bind]. apply IHl. intros x Hx; apply Hl; right; auto. }
    rewrite L1 in E by auto. cbn [bind fst snd] in E.
    assert (L2 : forall l st st', incl l (children_of g id) -> (forall x, In x (fst st) <-> In x (snd st)) ->
      ordered g (snd st) -> In id (snd st) ->
      foldM (fun st i => if smem i (fst st) then Ok st else seq_visit fuel g st i) st l = Ok st' ->
      (forall x, In x (fst st') <-> In x (snd st')) /\ ordered g (snd st') /\ incl (snd st) (snd st')).
    { induction l as [ | i l IHl]; intros st st2 Hl H1 H2 H3 E2; cbn [foldM] in E2.
      - injection E2 as <-. auto using incl_refl.
      - destruct (smem i (fst st)).
        + cbn [bind] in E2. apply (IHl st st2); auto. intros x Hx; apply Hl; right; auto.
        + inv_bind E2. rename x into st1. destruct st as [v0 r0]. cbn [fst snd] in *.
          destruct (IH v0 r0 i st1) as (J1 & J2 & J3); auto.
          { assert (Hi : In id (parents_of g i)) by (apply W, Hl; left; auto).
            specialize (Hf i). destruct (parents_of g i) as [ | p [ | q ps]]; simpl in *; try lia; try tauto.
            destruct Hi as [<- | []]. intros x [<- | []]. auto. }
          destruct (IHl st1 st2) as (K1 & K2 & K3); auto.
          { intros x Hx; apply Hl; right; auto. }
          split; [auto | split; [auto | eapply incl_tran; eauto]]. }
    apply L2 in E; auto using incl_refl; cbn [fst snd] in *.
    - destruct E as (J1 & J2 & J3). split; [auto | split; [auto | ]]. intros x Hx. apply J3, in_app_iff. auto.
    - intros x. rewrite in_app_iff. simpl. rewrite Hv. tauto.
    - apply ordered_snoc; auto.
    - apply in_app_iff. right; left; auto.
  Qed.

  Lemma forest_heads : forall g h h', wf g -> (forall x, length (parents_of g x) <= 1) ->
    is_head g h -> is_head g h' -> conn g h h' -> h = h'.
  Proof.
    intros g h h' W Hf [Hh Hp] [Hh' Hp'] Hc.
    set (S := fun x => x = h \/ reach g h x).
    assert (HS : forall x y, S x -> neighbour g x y -> S y).
    { intros x y [-> | Hr] [Hn | Hn].
      - rewrite Hp in Hn. destruct Hn.
      - right. apply t_step, edge_children. auto.
      - apply clos_trans_tn1 in Hr.
        assert (K : forall q, edge g q x -> q = y).
        { intros q Hq. apply edge_children, W in Hq. specialize (Hf x).
          destruct (parents_of g x) as [ | p [ | p2 ps]]; simpl in *; try lia; try tauto.
          destruct Hq as [<- | []], Hn as [<- | []]. auto. }
        inversion Hr; subst.
        + left. symmetry. apply K. auto.
        + right. rewrite <- (K y0) by auto. apply clos_tn1_trans. auto.
      - right. eapply t_trans; eauto. apply t_step, edge_children. auto. }
    pose proof (proj1 (conn_closed g S W HS h h' Hc) (or_introl eq_refl)) as [-> | Hr]; auto. exfalso.
    apply clos_trans_tn1 in Hr. assert (exists q, edge g q h') as [q Hq] by (inversion Hr; eauto).
    apply edge_children, W in Hq. rewrite Hp' in Hq. destruct Hq.
  Qed.

  Lemma seq_forest_order : forall g, wf g -> acyclic g -> (forall x, length (parents_of g x) <= 1) ->
    exists l, sequential_order_of_execution g = Ok l /\ topological g l.
  Proof.
    intros g W Ha Hf. destruct (seq_order_spec g W) as (l & E & H1 & _ & _ & H4). exists l. split; auto.
    assert (Hn : NoDup l) by (apply H4; intros h h'; apply forest_heads; auto).
    assert (Hids : forall i, In i l <-> In i (ids g)).
    { intros i. rewrite H1. split.
      - intros (h & [Hh _] & Hc). eapply conn_in; eauto.
      - intros Hi. apply acyclic_head; auto. }
    assert (Hord : ordered g l).
    { unfold sequential_order_of_execution in E. destruct (heads_spec g W) as (hs & Eh & _ & Hh). rewrite Eh in E.
      cbn [bind] in E. inv_bind E. injection E as <-.
      assert (K : forall hs st st', (forall h, In h hs -> parents_of g h = []) ->
        (forall x, In x (fst st) <-> In x (snd st)) -> ordered g (snd st) ->
        foldM (seq_visit (S (S (length (g_nodes g)))) g) st hs = Ok st' -> ordered g (snd st')).
      { clear - W Hf. intros hs. induction hs as [ | h hs IH]; intros st st' Hh Hv Ho E; cbn [foldM] in E.
        - injection E as <-. auto.
        - inv_bind E. destruct st as [v r]. apply seq_forest in E0 as (J1 & J2 & _); auto.
          + eapply IH; eauto. intros; apply Hh; right; auto.
          + rewrite (Hh h) by (left; auto). intros y []. }
      eapply K; eauto.
      - intros h Hi. apply Hh in Hi. tauto.
      - simpl. tauto.
      - intros a y b Eq. destruct a; discriminate. }
    split; auto. split.
    - intros i. rewrite Hids. split.
      + intros Hi. apply in_keys_dget in Hi as [n Hi]. exists n. apply has_node_dget. auto.
      + intros [n Hi]. apply has_node_dget in Hi. eapply dget_in_keys; eauto.
    - intros a b x y -> Hy He. apply edge_children, W in He.
      pose proof (Hord a x b eq_refl y He) as Hin. apply NoDup_app_inv in Hn as (_ & _ & Hd). eapply Hd; eauto.
  Qed.
End Order.
