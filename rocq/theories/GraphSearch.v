(** Facts about the searches of Graph.v: heads and tails, cycles, paths (C17-C21). *)
From Coq Require Import Relation_Operators Operators_Properties.
From Verif Require Import PyBase PyFacts Graph SpecGraph GraphFacts.
Open Scope string_scope.

(** A loop that preserves P, relates its states by a preorder R, and establishes Q for each
    element. *)
Lemma foldM_cover : forall S A (f : S -> A -> res S) (P : S -> Prop) (R : S -> S -> Prop) (Q : S -> A -> Prop),
  (forall s, R s s) -> (forall a b c, R a b -> R b c -> R a c) -> (forall s s' x, Q s x -> R s s' -> Q s' x) ->
  forall l s, P s ->
  (forall s1 x, In x l -> R s s1 -> P s1 -> exists s', f s1 x = Ok s' /\ P s' /\ R s1 s' /\ Q s' x) ->
  exists s', foldM f s l = Ok s' /\ P s' /\ R s s' /\ forall x, In x l -> Q s' x.
Proof.
  intros S A f P R Q Rr Rt Qm l. induction l as [ | x l IH]; intros s Hs Hf; simpl.
  - exists s. repeat split; auto. simpl; tauto.
  - destruct (Hf s x) as (s1 & E1 & P1 & R1 & Q1); [left; auto | auto | auto | ]. rewrite E1. simpl.
    destruct (IH s1 P1) as (s2 & E2 & P2 & R2 & Q2).
    + intros s3 y Hy R3 P3. apply Hf; auto; [right; auto | eauto].
    + exists s2. repeat split; eauto. intros y [<- | Hy]; eauto.
Qed.

Lemma NoDup_incl_len : forall (l u : list string), NoDup l -> incl l u -> length l <= length u.
Proof. intros. apply NoDup_incl_length; auto. Qed.
Lemma NoDup_incl_lt : forall (l u : list string) x, NoDup l -> incl l u -> In x u -> ~ In x l -> length l < length u.
Proof.
  intros l u x Hn Hi Hx Hnx. change (length (x :: l) <= length u). apply NoDup_incl_length; [constructor; auto | ].
  intros y [<- | Hy]; auto.
Qed.

(** ** __get_nodes *)
Section GetNodes.
  Variable U : list string.
  Variable related : string -> list string.
  Hypothesis U_nodup : NoDup U.
  Hypothesis closed : forall x y, In x U -> In y (related x) -> In y U.

  Definition gn_inv (st : list string * list string) : Prop :=
    NoDup (fst st) /\ incl (fst st) U /\ NoDup (snd st) /\
    forall x, In x (snd st) <-> In x (fst st) /\ related x = [].
  Definition gn_grow (s s' : list string * list string) : Prop := incl (fst s) (fst s').

  Lemma gn_visit_ok : forall fuel st id, gn_inv st -> In id U -> length U < fuel + length (fst st) ->
    exists st', gn_visit fuel related st id = Ok st' /\ gn_inv st' /\ gn_grow st st' /\ In id (fst st').
  Proof.
    induction fuel as [ | fuel IH]; intros [v r] id Hinv Hid Hf.
    - simpl in Hf. destruct Hinv as (H1 & H2 & _). pose proof (NoDup_incl_len _ _ H1 H2). simpl in *. lia.
    - cbn [gn_visit]. destruct (smem id v) eqn:Ev.
      + apply smem_in in Ev. exists (v, r). split; [auto | split; [auto | split; [apply incl_refl | auto]]].
      + apply smem_nin in Ev. destruct Hinv as (H1 & H2 & H3 & H4). simpl in H1, H2, H3, H4, Hf.
        assert (Hn : NoDup (id :: v)) by (constructor; auto).
        assert (Hi : incl (id :: v) U) by (intros y [<- | Hy]; auto).
        destruct (related id) as [ | c cs] eqn:Er.
        * exists (id :: v, (r ++ [id])%list). simpl. repeat split; auto; simpl.
          -- apply NoDup_app_intro; auto; [constructor; auto; constructor | ].
             intros x Hx [<- | []]. apply H4 in Hx. tauto.
          -- apply in_app_iff in H as [H | [<- | []]]; auto. apply H4 in H. tauto.
          -- apply in_app_iff in H as [H | [<- | []]]; auto. apply H4 in H. tauto.
          -- intros [[<- | Hx] Hr]; apply in_app_iff; [right; left; auto | left; apply H4; auto].
          -- red. simpl. intros y Hy. right. auto.
        * destruct (foldM_cover _ _ (gn_visit fuel related) gn_inv gn_grow (fun s x => In x (fst s)))
            with (l := c :: cs) (s := (id :: v, r)) as (s' & E & P' & R' & Q').
          -- intros s. red. apply incl_refl.
          -- intros a b d Hab Hbd. red. eapply incl_tran; eauto.
          -- intros s s' x Hx Hs. apply Hs. auto.
          -- repeat split; simpl; auto.
             ++ right. apply H4. auto.
             ++ apply H4. auto.
             ++ intros [[<- | Hx] Hr]; [congruence | ]. apply H4. auto.
          -- intros s1 x Hx R1 P1. apply IH; auto.
             ++ apply closed with id; auto. rewrite Er. auto.
             ++ destruct P1 as (N1 & I1 & _). assert (length (id :: v) <= length (fst s1)) by (apply NoDup_incl_len; auto).
                simpl in *. lia.
          -- rewrite E. exists s'. split; [auto | split; [auto | split]].
             ++ intros y Hy. apply R'. right. auto.
             ++ apply R'. left. auto.
  Qed.
End GetNodes.

Section Search.
  Context {D : Type}.
  Implicit Types (g : graph D) (n : node D).

  Lemma get_nodes_spec : forall g related, NoDup (ids g) ->
    (forall x y, In x (ids g) -> In y (related x) -> In y (ids g)) ->
    exists l, get_nodes g related = Ok l /\ NoDup l /\ forall x, In x l <-> In x (ids g) /\ related x = [].
  Proof.
    intros g related Hn Hc. unfold get_nodes.
    destruct (foldM_cover _ _ (gn_visit (S (length (g_nodes g))) related) (gn_inv (ids g) related) gn_grow (fun s x => In x (fst s)))
      with (l := ids g) (s := ([] : list string, [] : list string)) as (s' & E & P' & R' & Q').
    - intros s. red. apply incl_refl.
    - intros a b d Hab Hbd. red. eapply incl_tran; eauto.
    - intros s s' x Hx Hs. apply Hs. auto.
    - split; [constructor | split; [intros x [] | split; [constructor | simpl; tauto]]].
    - intros s1 x Hx R1 P1. apply gn_visit_ok; auto. unfold ids, dkeys. rewrite map_length. lia.
    - rewrite E. simpl. exists (snd s'). destruct P' as (N1 & I1 & N2 & H). repeat split; auto.
      + apply I1. apply H. auto.
      + apply H. auto.
      + intros [Hx Hr]. apply H. auto.
  Qed.
  Lemma heads_spec : forall g, wf g ->
    exists l, get_heads_id g = Ok l /\ NoDup l /\ forall x, In x l <-> In x (ids g) /\ parents_of g x = [].
  Proof. intros g W. apply get_nodes_spec; [apply W | ]. intros. eapply wf_parent_in; eauto. Qed.
  Lemma tails_spec : forall g, wf g ->
    exists l, get_tails_id g = Ok l /\ NoDup l /\ forall x, In x l <-> In x (ids g) /\ children_of g x = [].
  Proof. intros g W. apply get_nodes_spec; [apply W | ]. intros. eapply wf_child_in; eauto. Qed.

  (** ** Chains and cycles *)
  Lemma chain_app : forall g a x b, chain g (a ++ x :: b)%list <-> chain g (a ++ [x])%list /\ chain g (x :: b).
  Proof.
    intros g a x b. induction a as [ | y a IH]; simpl app.
    - simpl. tauto.
    - destruct a as [ | z a]; simpl app in *.
      + simpl. destruct b; tauto.
      + change (edge g y z /\ chain g (z :: a ++ x :: b)%list <-> (edge g y z /\ chain g (z :: a ++ [x])%list) /\ chain g (x :: b)).
        rewrite IH. tauto.
  Qed.
  Lemma chain_snoc : forall g a x y, chain g (a ++ [x])%list -> edge g x y -> chain g (a ++ [x; y])%list.
  Proof. intros. apply chain_app. split; auto. simpl. auto. Qed.

  Definition reach g := clos_trans string (edge g).
  Lemma chain_reach : forall g l x y, chain g (x :: l ++ [y])%list -> reach g x y.
  Proof.
    intros g l. induction l as [ | z l IH]; intros x y H; simpl app in H.
    - apply t_step. apply H.
    - destruct H as [H1 H2]. eapply t_trans; [apply t_step; eauto | apply IH; auto].
  Qed.
  Lemma reach_chain : forall g x y, reach g x y -> exists l, chain g (x :: l ++ [y])%list.
  Proof.
    intros g x y H. apply clos_trans_t1n in H. induction H.
    - exists []. simpl. auto.
    - destruct IHclos_trans_1n as [l Hl]. exists (y :: l). split; auto.
  Qed.
  Lemma cycle_reach : forall g l, cycle g l -> exists x, In x l /\ reach g x x.
  Proof. intros g l (x & l' & -> & H). exists x. split; [left; auto | ]. eapply chain_reach; eauto. Qed.
  Lemma reach_cycle : forall g x, reach g x x -> exists l, cycle g l /\ In x l.
  Proof.
    intros g x H. apply reach_chain in H as [l Hl]. exists (x :: l). split; [ | left; auto]. exists x, l. auto.
  Qed.
  Lemma acyclic_reach : forall g, acyclic g <-> forall x, ~ reach g x x.
  Proof.
    intros g. split.
    - intros H x Hx. apply reach_cycle in Hx as [l [Hl _]]. eapply H; eauto.
    - intros H l Hl. apply cycle_reach in Hl as [x [_ Hx]]. eapply H; eauto.
  Qed.
  Lemma reach_first : forall g x y, reach g x y -> exists c, edge g x c /\ (c = y \/ reach g c y).
  Proof. intros g x y H. apply clos_trans_t1n in H. destruct H; eauto. exists y. split; auto. right. apply clos_t1n_trans. auto. Qed.

  (** Top of the stack first. *)
  Fixpoint stack g (l : list string) : Prop :=
    match l with
    | a :: (b :: _) as l' => edge g b a /\ stack g l'
    | _ => True
    end.
  Lemma stack_chain : forall g l, stack g l -> chain g (rev l).
  Proof.
    intros g l. induction l as [ | a l IH]; intros H; simpl; auto. destruct l as [ | b l]; simpl; auto.
    destruct H as [H1 H2]. simpl rev in IH. rewrite <- app_assoc. simpl. apply chain_snoc; auto.
  Qed.
  Lemma stack_app_l : forall g a b, stack g (a ++ b)%list -> stack g a.
  Proof.
    intros g a b. induction a as [ | x a IH]; simpl app; intros H; [exact I | ]. destruct a as [ | y a]; [exact I | ].
    destruct H as [H1 H2]. split; auto.
  Qed.
  Lemma stack_app_r : forall g a b, stack g (a ++ b)%list -> stack g b.
  Proof.
    intros g a b. induction a as [ | x a IH]; simpl app; intros H; auto. apply IH.
    destruct a as [ | y a]; simpl in *; [destruct b; [auto | tauto] | tauto].
  Qed.
  Lemma stack_tl : forall g a l, stack g (a :: l) -> stack g l.
  Proof. intros g a l H. apply (stack_app_r g [a] l). auto. Qed.

  (** A stack whose top has an edge to one of its elements contains a cycle. *)
  Lemma stack_cycle : forall g s w, stack g s -> In w s -> edge g (hd "" s) w ->
    exists a b, s = (a ++ w :: b)%list /\ cycle g (w :: rev a).
  Proof.
    intros g s w Hs Hw He. apply in_split in Hw as (a & b & ->). exists a, b. split; auto.
    exists w, (rev a). split; auto.
    assert (H : stack g (a ++ [w])%list).
    { apply (stack_app_l g (a ++ [w])%list b). rewrite <- app_assoc. auto. }
    apply stack_chain in H. rewrite rev_app_distr in H. change (chain g (w :: rev a)) in H.
    destruct a as [ | x a]; [simpl in *; auto | ]. simpl hd in He. simpl rev in *.
    change (chain g (w :: (rev a ++ [x]) ++ [w])%list). rewrite <- app_assoc.
    apply (chain_snoc g (w :: rev a)); auto.
  Qed.

  (** ** Cycle detection *)
  Fixpoint cyc_loop (visit : list string * list string -> string -> res ((list string * list string) * list string))
      (st : list string * list string) (l : list string) : res ((list string * list string) * list string) :=
    match l with
    | [] => Ok ((fst st, tl (snd st)), [])
    | c :: l' =>
        let! (st', p) := visit st c in
        if (smem c (snd st') || negb (Nat.eqb (length p) 0))%bool
        then Ok (st', (p ++ [c])%list)
        else cyc_loop visit st' l'
    end.
  Lemma cyc_visit_S : forall fuel g v path id,
    cyc_visit (S fuel) g (v, path) id =
    if smem id v then Ok ((v, path), [])
    else cyc_loop (cyc_visit fuel g) (id :: v, id :: path) (children_of g id).
  Proof.
    intros. cbn [cyc_visit]. destruct (smem id v); auto.
    generalize (id :: v, id :: path). induction (children_of g id) as [ | c l IH]; intros st; auto.
    cbn [cyc_loop]. destruct (cyc_visit fuel g st c) as [[st' p] | e]; auto. cbn [bind].
    destruct (smem c (snd st') || negb (Nat.eqb (length p) 0))%bool; auto.
  Qed.

  (** It terminates. *)
  Lemma cyc_visit_total : forall g, wf g -> forall fuel st id,
    NoDup (fst st) -> incl (fst st) (ids g) -> In id (ids g) -> length (ids g) < fuel + length (fst st) ->
    exists st' p, cyc_visit fuel g st id = Ok (st', p) /\ NoDup (fst st') /\ incl (fst st') (ids g) /\
      incl (fst st) (fst st') /\ In id (fst st').
  Proof.
    intros g W. induction fuel as [ | fuel IH]; intros [v path] id Hn Hi Hid Hf; simpl in Hn, Hi, Hf.
    - pose proof (NoDup_incl_len _ _ Hn Hi). lia.
    - rewrite cyc_visit_S. destruct (smem id v) eqn:Ev.
      + apply smem_in in Ev. exists (v, path), []. simpl. auto using incl_refl.
      + apply smem_nin in Ev. assert (Hcl : forall c, In c (children_of g id) -> In c (ids g)).
        { intros c. apply wf_child_in. auto. }
        assert (Hn1 : NoDup (id :: v)) by (constructor; auto).
        assert (Hi1 : incl (id :: v) (ids g)) by (intros y [<- | Hy]; auto).
        assert (L : forall l st, (forall c, In c l -> In c (ids g)) -> NoDup (fst st) -> incl (fst st) (ids g) ->
                    incl (id :: v) (fst st) ->
                    exists st' p, cyc_loop (cyc_visit fuel g) st l = Ok (st', p) /\ NoDup (fst st') /\
                      incl (fst st') (ids g) /\ incl (id :: v) (fst st')).
        { induction l as [ | c l IHl]; intros st Hl N1 I1 I2; cbn [cyc_loop].
          - exists (fst st, tl (snd st)), []. auto.
          - destruct (IH st c) as (st' & p & E & N2 & I3 & I4 & _); auto.
            + apply Hl. left; auto.
            + pose proof (NoDup_incl_len _ _ Hn1 I2). simpl in *. lia.
            + rewrite E. cbn [bind]. destruct (smem c (snd st') || negb (Nat.eqb (length p) 0))%bool.
              * exists st', (p ++ [c])%list. repeat split; auto. eapply incl_tran; eauto.
              * apply IHl; auto. { intros; apply Hl; right; auto. } eapply incl_tran; eauto. }
        destruct (L (children_of g id) (id :: v, id :: path)) as (st' & p & E & N2 & I2 & I3); auto using incl_refl.
        exists st', p. repeat split; auto.
        * intros y Hy. apply I3. right. auto.
        * apply I3. left. auto.
  Qed.

  (** Black: finished nodes. *)
  Definition cinv g (st : list string * list string) : Prop :=
    let '(v, path) := st in
    stack g path /\ NoDup path /\ incl path v /\
    forall x, In x v -> ~ In x path -> ~ reach g x x /\ forall c, edge g x c -> In c v /\ ~ In c path.

  Lemma black_closed : forall g v path x y, cinv g (v, path) -> In x v -> ~ In x path -> reach g x y ->
    In y v /\ ~ In y path.
  Proof.
    intros g v path x y (_ & _ & _ & H) Hx Hp Hr. apply clos_trans_t1n in Hr. induction Hr.
    - eapply H; eauto.
    - apply IHHr; eapply H; eauto.
  Qed.

  Lemma cyc_visit_spec : forall g fuel v path id st' p, cinv g (v, path) -> stack g (id :: path) ->
    cyc_visit fuel g (v, path) id = Ok (st', p) ->
    (p = [] /\ cinv g st' /\ snd st' = path /\ incl v (fst st') /\ In id (fst st')) \/
    (exists w q, p = w :: q /\ stack g (q ++ id :: path)%list /\ In w (q ++ id :: path)%list /\
       edge g (hd "" (q ++ id :: path)%list) w).
  Proof.
    intros g. induction fuel as [ | fuel IH]; intros v path id st' p HI Hst E; [discriminate | ].
    rewrite cyc_visit_S in E. destruct (smem id v) eqn:Ev.
    - inversion E; subst. left. apply smem_in in Ev. simpl. auto using incl_refl.
    - apply smem_nin in Ev. pose proof HI as (I1 & I2 & I3 & I4).
      (* the loop over the children *)
      assert (L : forall l done v1 st' p, children_of g id = (done ++ l)%list ->
                  cinv g (v1, id :: path) -> incl (id :: v) v1 ->
                  (forall c, In c done -> In c v1 /\ ~ In c (id :: path)) ->
                  cyc_loop (cyc_visit fuel g) (v1, id :: path) l = Ok (st', p) ->
                  (p = [] /\ cinv g st' /\ snd st' = path /\ incl v (fst st') /\ In id (fst st')) \/
                  (exists w q, p = w :: q /\ stack g (q ++ id :: path)%list /\ In w (q ++ id :: path)%list /\
                     edge g (hd "" (q ++ id :: path)%list) w)).
      { clear st' p E. induction l as [ | c l IHl]; intros done v1 st' p Hd HI1 Hv Hdone E; cbn [cyc_loop] in E.
        - injection E as <- <-. left. simpl. rewrite app_nil_r in Hd.
          split; auto. split; [ | split; [auto | split; [intros y Hy; apply Hv; right; auto | apply Hv; left; auto]]].
          pose proof HI1 as (J1 & J2 & J3 & J4). apply NoDup_cons_iff in J2 as [J2 J2'].
          split; [eapply stack_tl; eauto | ]. split; auto. split; [intros y Hy; apply J3; right; auto | ].
          intros x Hx Hnp. destruct (string_dec x id) as [-> | Hne].
          + assert (Hch : forall c, edge g id c -> In c v1 /\ ~ In c (id :: path)).
            { intros c Hc. apply edge_children in Hc. rewrite Hd in Hc. auto. }
            split.
            * intros Hr. apply reach_first in Hr as (c & Hc & Hr). apply Hch in Hc as [Hc1 Hc2].
              destruct Hr as [-> | Hr]; [apply Hc2; left; auto | ].
              destruct (black_closed g v1 (id :: path) c id HI1 Hc1 Hc2 Hr) as [_ Hb]. apply Hb. left; auto.
            * intros c Hc. apply Hch in Hc as [Hc1 Hc2]. split; auto. intros Hin. apply Hc2. right; auto.
          + destruct (J4 x Hx) as [K1 K2]; [intros [Hq | Hq]; auto | ]. split; auto.
            intros c Hc. apply K2 in Hc as [Hc1 Hc2]. split; auto. intros Hin. apply Hc2. right; auto.
        - destruct (cyc_visit fuel g (v1, id :: path) c) as [[st1 p1] | e] eqn:E1; [ | discriminate]. cbn [bind] in E.
          assert (Hc : edge g id c). { apply edge_children. rewrite Hd. apply in_app_iff. right; left; auto. }
          assert (Hsc : stack g (c :: id :: path)) by (split; auto).
          pose proof (IH _ _ _ _ _ HI1 Hsc E1) as [(-> & J1 & J2 & J3 & J4) | (w & q & -> & J2 & J3 & J4)].
          + destruct st1 as [v2 path2]. simpl in J2, J3, J4. subst path2.
            assert (X : (smem c (snd (v2, id :: path)) || negb (Nat.eqb (length (@nil string)) 0))%bool = smem c (id :: path)) by apply orb_false_r.
            rewrite X in E. destruct (smem c (id :: path)) eqn:Em.
            * injection E as <- <-. right. exists c, []. simpl. repeat split; auto.
              apply smem_in in Em. exact Em.
            *
              apply (IHl (done ++ [c])%list v2); auto.
              -- rewrite <- app_assoc. auto.
              -- eapply incl_tran; eauto.
              -- intros y Hy. apply in_app_iff in Hy as [Hy | [<- | []]].
                 ++ apply Hdone in Hy as [Hy1 Hy2]. auto.
                 ++ split; auto. apply smem_nin. auto.
          + assert (E' : (smem c (snd st1) || negb (Nat.eqb (length (w :: q)) 0))%bool = true) by (simpl; apply orb_true_r).
            rewrite E' in E. inversion E; subst. right. exists w, (q ++ [c])%list.
            rewrite <- app_assoc. simpl. auto. }
      apply (L (children_of g id) [] (id :: v) st' p); auto using incl_refl.
      + split; auto. split; [constructor; auto | ]. split; [intros y [<- | Hy]; [left; auto | right; auto] | ].
        intros x [<- | Hx] Hnp; [exfalso; apply Hnp; left; auto | ].
        assert (Hxp : ~ In x path) by (intros H; apply Hnp; right; auto).
        destruct (I4 x Hx Hxp) as [K1 K2]. split; auto. intros c Hc. apply K2 in Hc as [Hc1 Hc2].
        split; [right; auto | ]. intros [<- | Hin]; auto.
      + simpl. tauto.
  Qed.

  Definition circ_step g (acc : (list string * list string) * list string) (id : string) :=
    let! (st', p) := cyc_visit (S (length (g_nodes g))) g (fst acc) id in Ok (st', (snd acc ++ p)%list).
  Lemma circ_fold : forall g, get_circular_dependencies g =
    bind (foldM (circ_step g) (([], []), []) (ids g)) (fun r => Ok (rev (snd r))).
  Proof. reflexivity. Qed.
  Lemma ids_length : forall g, length (ids g) = length (g_nodes g).
  Proof. intros. unfold ids, dkeys. apply map_length. Qed.

  Lemma circ_total : forall g l acc, wf g -> incl l (ids g) -> NoDup (fst (fst acc)) -> incl (fst (fst acc)) (ids g) ->
    exists r, foldM (circ_step g) acc l = Ok r /\ exists rest, snd r = (snd acc ++ rest)%list.
  Proof.
    intros g l. induction l as [ | i l IH]; intros acc W Hl Hn Hi; simpl.
    - exists acc. split; auto. exists []. rewrite app_nil_r. auto.
    - destruct (cyc_visit_total g W (S (length (g_nodes g))) (fst acc) i) as (st' & p & E & N1 & I1 & I2 & I3); auto.
      + apply Hl. left; auto.
      + rewrite ids_length. lia.
      + unfold circ_step at 1. rewrite E. cbn [bind].
        destruct (IH (st', (snd acc ++ p)%list)) as (r & Er & rest & Hr); auto.
        * intros x Hx. apply Hl. right; auto.
        * exists r. split; auto. exists (p ++ rest)%list. rewrite Hr. cbn [snd]. rewrite <- app_assoc. auto.
  Qed.

  Lemma circ_spec : forall g l v r, wf g -> incl l (ids g) -> NoDup v -> incl v (ids g) -> cinv g (v, []) ->
    foldM (circ_step g) ((v, []), []) l = Ok r ->
    (snd r = [] /\ cinv g (fst r) /\ snd (fst r) = [] /\ incl v (fst (fst r)) /\ incl l (fst (fst r))) \/
    (exists cyc, cycle g cyc /\ incl cyc (snd r)).
  Proof.
    intros g l. induction l as [ | i l IH]; intros v r W Hl Hn Hi HI E; simpl in E.
    - injection E as <-. left. split; [auto | split; [exact HI | split; [auto | split; [apply incl_refl | intros x []]]]].
    - unfold circ_step at 1 in E. cbn [fst snd] in E.
      destruct (cyc_visit_total g W (S (length (g_nodes g))) (v, []) i) as (st' & p & E1 & N1 & I1 & I2 & I3); auto.
      { apply Hl; left; auto. } { rewrite ids_length. lia. }
      rewrite E1 in E. cbn [bind] in E.
      destruct (cyc_visit_spec g _ _ _ _ _ _ HI I E1) as [(-> & J1 & J2 & J3 & J4) | (w & q & -> & J2 & J3 & J4)].
      + destruct st' as [v' pa]. simpl in J2. subst pa.
        destruct (IH v' r) as [(K1 & K2 & K3 & K4 & K5) | K]; auto.
        { intros x Hx; apply Hl; right; auto. }
        left. simpl in *. split; [auto | split; [auto | split; [auto | split]]].
        * eapply incl_tran; eauto.
        * intros x [<- | Hx]; auto.
      + right. destruct (stack_cycle g _ w J2 J3 J4) as (a & b & Es & Hc).
        destruct (circ_total g l (st', [] ++ (w :: q))%list) as (r' & Er & rest & Hr); auto.
        { intros x Hx; apply Hl; right; auto. }
        rewrite Er in E. injection E as <-. exists (w :: rev a). split; auto. rewrite Hr. cbn [fst snd app].
        intros x [<- | Hx]; [left; auto | ]. apply in_rev in Hx. right. apply in_app_iff. left.
        (* a is a proper prefix of q ++ [i] *)
        destruct (exists_last (l := w :: b)) as (b' & z & Eb); [discriminate | ].
        rewrite Eb in Es. rewrite app_assoc in Es. apply app_inj_tail in Es as [Es _].
        rewrite Es. apply in_app_iff. auto.
  Qed.

  Lemma circular_spec : forall g, wf g -> exists l, get_circular_dependencies g = Ok l /\
    (l = [] -> acyclic g) /\ (l <> [] -> exists cyc, cycle g cyc /\ incl cyc l).
  Proof.
    intros g W. rewrite circ_fold.
    destruct (circ_total g (ids g) (([], []), [])) as (r & E & _); auto using incl_refl.
    { constructor. } { intros x []. }
    rewrite E. simpl. exists (rev (snd r)). split; auto.
    assert (HI : cinv g ([], [])).
    { split; [exact I | split; [constructor | split; [intros x [] | intros x []]]]. }
    apply circ_spec in E; auto using incl_refl; [ | constructor | intros x []].
    split.
    - intros Hr. assert (Hr' : snd r = []) by (rewrite <- (rev_involutive (snd r)), Hr; auto).
      destruct E as [(K1 & K2 & K3 & _ & K5) | (cyc & Hc & Hi)].
      + apply acyclic_reach. intros x Hx. destruct (fst r) as [v pa]. simpl in *. subst pa.
        destruct (reach_first _ _ _ Hx) as (c & Hc & _). apply edge_children, children_of_in in Hc.
        apply K5 in Hc. destruct K2 as (_ & _ & _ & K2). destruct (K2 x Hc) as [K _]; auto.
      + exfalso. destruct Hc as (x & l & -> & _). rewrite Hr' in Hi. apply (Hi x). left; auto.
    - intros Hr. destruct E as [(K1 & _) | (cyc & Hc & Hi)].
      + rewrite K1 in Hr. simpl in Hr. congruence.
      + exists cyc. split; auto. intros x Hx. rewrite <- in_rev. auto.
  Qed.
  Lemma circular_iff : forall g l, wf g -> get_circular_dependencies g = Ok l -> (l = [] <-> acyclic g).
  Proof.
    intros g l W E. destruct (circular_spec g W) as (l' & E' & H1 & H2). rewrite E in E'. injection E' as <-.
    split; auto. intros Ha. destruct l as [ | x l]; auto. exfalso.
    destruct H2 as (cyc & Hc & _); [discriminate | ]. eapply Ha; eauto.
  Qed.

  (** Every reported id leads to a cycle. *)
  Definition leads g (x : string) : Prop := exists l y, cycle g l /\ In y l /\ (x = y \/ reach g x y).
  Lemma leads_edge : forall g x y, edge g x y -> leads g y -> leads g x.
  Proof.
    intros g x y He (l & z & Hc & Hz & [-> | Hr]); exists l, z; repeat split; auto; right.
    - apply t_step; auto.
    - eapply t_trans; [apply t_step; eauto | auto].
  Qed.
  Lemma leads_stack : forall g a l, stack g (a :: l) -> leads g a -> Forall (leads g) l.
  Proof.
    intros g a l. revert a. induction l as [ | b l IH]; intros a Hs Hl; constructor.
    - eapply leads_edge; eauto. apply Hs.
    - apply (IH b); [apply Hs | ]. eapply leads_edge; eauto. apply Hs.
  Qed.

  Lemma cyc_leads : forall g fuel v live stale id st' p, stack g (id :: live) -> Forall (leads g) stale ->
    cyc_visit fuel g (v, (live ++ stale)%list) id = Ok (st', p) ->
    (p = [] /\ snd st' = (live ++ stale)%list) \/
    (p <> [] /\ leads g id /\ Forall (leads g) p /\
     exists ext, snd st' = (ext ++ live ++ stale)%list /\ Forall (leads g) ext).
  Proof.
    intros g. induction fuel as [ | fuel IH]; intros v live stale id st' p Hs Hst E; [discriminate | ].
    rewrite cyc_visit_S in E. destruct (smem id v) eqn:Ev.
    - injection E as <- <-. auto.
    - assert (L : forall l v1 st' p, incl l (children_of g id) ->
                  cyc_loop (cyc_visit fuel g) (v1, id :: live ++ stale)%list l = Ok (st', p) ->
                  (p = [] /\ snd st' = (live ++ stale)%list) \/
                  (p <> [] /\ leads g id /\ Forall (leads g) p /\
                   exists ext, snd st' = (ext ++ live ++ stale)%list /\ Forall (leads g) ext)).
      { clear st' p E. induction l as [ | c l IHl]; intros v1 st' p Hl E; cbn [cyc_loop] in E.
        - injection E as <- <-. auto.
        - destruct (cyc_visit fuel g (v1, id :: live ++ stale)%list c) as [[st1 p1] | e] eqn:E1; [ | discriminate].
          cbn [bind] in E. assert (Hc : edge g id c) by (apply edge_children, Hl; left; auto).
          assert (Hsc : stack g (c :: id :: live)) by (split; auto).
          destruct (IH v1 (id :: live) stale c st1 p1 Hsc Hst E1) as [(-> & J2) | (J1 & J2 & J3 & ext & J4 & J5)].
          + rewrite J2 in E.
            assert (X : (smem c ((id :: live) ++ stale) || negb (Nat.eqb (length (@nil string)) 0))%bool =
                        smem c ((id :: live) ++ stale)) by apply orb_false_r.
            rewrite X in E. destruct (smem c ((id :: live) ++ stale)) eqn:Em.
            * injection E as <- <-. right. apply smem_in in Em.
              assert (Hcl : leads g c).
              { apply in_app_iff in Em as [Em | Em]; [ | rewrite Forall_forall in Hst; auto].
                destruct (stack_cycle g (id :: live) c) as (a & b & _ & Hcy); auto.
                exists (c :: rev a), c. split; [auto | split; [left; auto | left; auto]]. }
              assert (Hid : leads g id) by (eapply leads_edge; eauto).
              split; [discriminate | ]. split; auto. split; [constructor; auto | ].
              exists [id]. rewrite J2. split; [auto | constructor; auto].
            * destruct st1 as [v2 pa]. simpl in J2. subst pa. apply (IHl v2); auto. intros x Hx; apply Hl; right; auto.
          + assert (X : (smem c (snd st1) || negb (Nat.eqb (length p1) 0))%bool = true).
            { apply orb_true_iff. right. destruct p1; [congruence | auto]. }
            rewrite X in E. injection E as <- <-. right.
            assert (Hid : leads g id) by (eapply leads_edge; eauto).
            split; [destruct p1; discriminate | ]. split; auto.
            split; [apply Forall_app; split; auto | ].
            exists (ext ++ [id])%list. rewrite J4. split; [rewrite <- app_assoc; auto | ].
            apply Forall_app. split; auto. }
      apply (L (children_of g id) (id :: v) st' p); auto using incl_refl.
  Qed.
  Lemma circ_leads : forall g l v stale acc r, Forall (leads g) stale -> Forall (leads g) acc ->
    foldM (circ_step g) ((v, stale), acc) l = Ok r -> Forall (leads g) (snd r).
  Proof.
    intros g l. induction l as [ | i l IH]; intros v stale acc r Hs Ha E; simpl in E.
    - injection E as <-. auto.
    - unfold circ_step at 1 in E. cbn [fst snd] in E.
      destruct (cyc_visit (S (length (g_nodes g))) g (v, stale) i) as [[[v' pa] p] | e] eqn:E1; [ | discriminate].
      cbn [bind] in E. destruct (cyc_leads g _ v [] stale i _ _ I Hs E1) as [(-> & J) | (_ & J2 & J3 & ext & J4 & J5)].
      + simpl in J. subst pa. rewrite app_nil_r in E. exact (IH _ _ _ _ Hs Ha E).
      + simpl in J4. subst pa. apply IH in E; auto; apply Forall_app; auto.
  Qed.
  Lemma circular_leads : forall g l x, get_circular_dependencies g = Ok l -> In x l -> leads g x.
  Proof.
    intros g l x E Hx. rewrite circ_fold in E. inv_bind E. injection E as <-.
    apply circ_leads in E0; auto. rewrite Forall_forall in E0. apply E0. apply in_rev. auto.
  Qed.

  (** ** validate *)
  Definition bad_heads g (h : string) : Prop := In h (ids g) /\ parents_of g h = [] /\
    forall n, dget h (g_nodes g) = Some n -> ntype_eqb (n_type n) INPUT_ROOT = false.
  Lemma unconnected_spec : forall g, wf g -> exists l, get_unconnected_nodes g = Ok l /\ NoDup l /\
    forall h, In h l <-> bad_heads g h.
  Proof.
    intros g W. unfold get_unconnected_nodes. destruct (heads_spec g W) as (hs & E & Hn & Hh). rewrite E. cbn [bind].
    eexists. split; [reflexivity | ]. split; [apply NoDup_filter; auto | ]. intros h. rewrite filter_In, Hh. unfold bad_heads.
    split.
    - intros [[H1 H2] H3]. repeat split; auto. intros n Hn'. rewrite Hn' in H3. apply negb_true_iff. auto.
    - intros (H1 & H2 & H3). repeat split; auto. destruct (dget h (g_nodes g)); auto. rewrite H3; auto.
  Qed.
  Lemma validate_spec : forall g, wf g -> exists c u,
    get_circular_dependencies g = Ok c /\ get_unconnected_nodes g = Ok u /\
    validate g = Ok ((match c with [] => [] | _ => [CIRCULAR_REFS c] end) ++
                     (match u with [] => [] | _ => [UNCONNECTED_NODES u] end))%list /\
    (c = [] <-> acyclic g) /\ (u = [] <-> forall h, ~ bad_heads g h).
  Proof.
    intros g W. destruct (circular_spec g W) as (c & Ec & _). destruct (unconnected_spec g W) as (u & Eu & _ & Hu).
    exists c, u. unfold validate. rewrite Ec, Eu. repeat split; auto.
    - apply (circular_iff g c W Ec).
    - apply (circular_iff g c W Ec).
    - intros -> h Hh. apply Hu in Hh. destruct Hh.
    - intros H. destruct u as [ | h u]; auto. exfalso. apply (H h). apply Hu. left; auto.
  Qed.
  Lemma validate_valid : forall g, wf g -> (validate g = Ok [] <-> acyclic g /\ forall h, ~ bad_heads g h).
  Proof.
    intros g W. destruct (validate_spec g W) as (c & u & _ & _ & E & Hc & Hu). rewrite E, <- Hc, <- Hu.
    split.
    - intros H. injection H as H. destruct c, u; simpl in H; try discriminate. auto.
    - intros [-> ->]. auto.
  Qed.
End Search.
