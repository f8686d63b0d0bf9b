(** Proofs about draw orders with any offsets. *)
From Verif Require Import PyBase PyFacts Json Classes SpineGraph DrawOrder SpecDraw DrawFacts.
Open Scope string_scope.
Open Scope list_scope.

Lemma counted_get : forall l d, offsets_by_slot l = Ok d -> forall s o, dget s d = Some o <-> counted l s o.
Proof.
  intros l d. unfold offsets_by_slot. set (f := fun d o => _).
  enough (K : forall l d0 d, foldM f d0 l = Ok d -> forall s o, dget s d = Some o <-> counted l s o \/ ((forall o', In o' l -> oget o' "slot" <> VStr s) /\ dget s d0 = Some o)).
  { intros E s o. rewrite (K l [] d E). cbn [dget]. split; [intros [H | [_ H]]; [auto | discriminate] | auto]. }
  clear l d. intros l. induction l as [ | x l IH]; intros d0 d E s o.
  - cbn in E. injection E as <-. split; [intros H; right; split; [intros o' [] | auto] | intros [(a & b & H & _) | [_ H]]; auto; destruct a; discriminate].
  - cbn [foldM] in E. apply bind_ok in E as (d1 & E1 & E). rewrite (IH _ _ E). clear IH E.
    assert (C : counted (x :: l) s o <-> counted l s o \/ (x = o /\ oget o "slot" = VStr s /\ forall o', In o' l -> oget o' "slot" <> VStr s)).
    { split.
      - intros (a & b & H & Hs & Hb). destruct a as [ | y a]; cbn [app] in H; injection H as <- ->; [right; auto | left; exists a, b; auto].
      - intros [(a & b & -> & Hs & Hb) | (-> & Hs & Hb)]; [exists (x :: a), b; auto | exists [], l; auto]. }
    rewrite C. unfold f in E1. destruct (ostr x "slot") as [s0 | ] eqn:Es.
    + injection E1 as <-. apply ostr_named in Es. unfold named in Es. rewrite dget_dset. eqb_cases s s0.
      * subst s0. split.
        -- intros [H | [H G]]; auto. injection G as <-. auto.
        -- intros [[H | (<- & _ & H)] | [H _]]; auto. destruct (H x (or_introl eq_refl) Es).
      * split.
        -- intros [H | [H G]]; auto. right. split; auto. intros o' [<- | I]; auto. congruence.
        -- intros [[H | (-> & Hs & H)] | [H G]]; auto; [congruence | ]. right. split; auto. intros o' I. apply H. right. auto.
    + injection E1 as <-. assert (Nx : oget x "slot" <> VStr s) by (intros H; apply ostr_named in H; congruence). split.
      * intros [H | [H G]]; auto. right. split; auto. intros o' [<- | I]; auto.
      * intros [[H | (-> & Hs & H)] | [H G]]; auto; [contradiction | ]. right. split; auto. intros o' I. apply H. right. auto.
Qed.
Lemma as_int_other : forall v, (exists z, as_int v = Ok z /\ int_value v z) \/ ((exists w, as_int v = Err (EType w)) /\ forall z, ~ int_value v z).
Proof.
  intros v. destruct (as_int v) as [z | e] eqn:E.
  - left. exists z. split; auto. apply as_int_value. auto.
  - right. split; [destruct v; cbn in E; try discriminate; injection E as <-; eauto | ]. intros z H. apply as_int_value in H. congruence.
Qed.
Lemma operations_err : forall d names i, (exists s o, In s names /\ dget s d = Some o /\ forall z, ~ int_value (oget o "offset") z) ->
  exists w, operations d i names = Err (EType w).
Proof.
  intros d names. induction names as [ | n names IH]; intros i (s & o & Hs & G & Hz); [destruct Hs | ]. cbn [operations].
  destruct (dget n d) as [o' | ] eqn:En.
  - destruct (as_int_other (oget o' "offset")) as [(z & -> & V) | ((w & ->) & V)]; [ | cbn [bind]; eauto]. cbn [bind].
    destruct Hs as [<- | Hs]; [rewrite En in G; injection G as ->; destruct (Hz z V) | ].
    destruct (IH (i + 1)%Z) as [w ->]; [eauto | ]. cbn [bind]. eauto.
  - destruct Hs as [<- | Hs]; [congruence | ]. apply IH. eauto.
Qed.

Theorem remove_offsets_any : forall removed names d, NoDup names ->
  (not_by_int names (do_offsets d) -> exists w, remove_offsets_with_ids removed names d = (d, Err (EType w))) /\
  (~ not_by_int names (do_offsets d) -> of_no_slot removed names (do_offsets d) -> exists w, remove_offsets_with_ids removed names d = (d, Err (EValue w))) /\
  (~ not_by_int names (do_offsets d) -> ~ of_no_slot removed names (do_offsets d) -> exists d', remove_offsets_with_ids removed names d = (d', Ok tt)).
Proof.
  intros removed names d N. unfold remove_offsets_with_ids. destruct (offsets_by_slot_total (do_offsets d)) as [slots Es].
  pose proof (counted_get _ _ Es) as C. apply offsets_by_slot_ok in Es as K. destruct K as (K1 & K2 & K3). rewrite Es. cbn [bind]. unfold reorder_slots_with_offset. split.
  - intros (s & o & Hs & Hc & Hz). destruct (operations_err slots names 0) as [w ->]; [exists s, o; rewrite C; auto | cbn [bind]; eauto].
  - assert (P : ~ not_by_int names (do_offsets d) -> exists final, (let! ops := operations slots 0 names in
        Ok (fold_left (fun l op => py_insert (snd op) (fst op) l) (sort_by snd ops) (filter (fun n => negb (dmem n slots)) names))) = Ok final /\ Permutation final names).
    { intros H. destruct (operations_total slots names 0) as [ops Eo].
      - intros s o Hs G. destruct (as_int_other (oget o "offset")) as [(z & -> & _) | (_ & V)]; eauto. destruct H. exists s, o. rewrite <- C. auto.
      - assert (R : reorder_slots_with_offset slots names = Ok (fold_left (fun l op => py_insert (snd op) (fst op) l) (sort_by snd ops) (filter (fun n => negb (dmem n slots)) names))) by (unfold reorder_slots_with_offset; rewrite Eo; reflexivity).
        rewrite Eo. eexists. split; [reflexivity | ]. eapply reorder_perm; eauto. }
    destruct (forallb has_slot (do_offsets d)) eqn:Hs.
    + assert (Hn := proj1 (has_slots _) Hs).
      assert (T : forall final, Permutation final names ->
        (of_no_slot removed names (do_offsets d) -> exists w, adjust_offsets removed final names slots = Err (EValue w)) /\
        (~ of_no_slot removed names (do_offsets d) -> exists l, adjust_offsets removed final names slots = Ok l)).
      { intros final Pf. rewrite adjust_eq. set (f := adj1 removed (survivors removed names) (survivors removed final)).
        assert (Q : forall s o, (In s names \/ In s removed -> exists r, f (s, o) = Ok r) /\ (~ In s names -> ~ In s removed -> exists w, f (s, o) = Err (EValue w))).
        { intros s o. unfold f, adj1. destruct (smem s removed) eqn:Er.
          - apply smem_in in Er. split; [eauto | tauto].
          - apply smem_nin in Er. split.
            + intros [H | H]; [ | contradiction]. destruct (py_index_in (survivors removed names) s) as [i ->]; [apply in_survivors; auto | ].
              destruct (py_index_in (survivors removed final) s) as [j ->]; [ | simpl; eauto]. apply in_survivors. split; auto. eapply Permutation_in; [symmetry; eauto | auto].
            + intros H _. rewrite py_index_nin; [simpl; eauto | ]. rewrite in_survivors. tauto. }
        clearbody f. split; intros H.
        - destruct H as (o & Ho & H). destruct (Hn o Ho) as [s Hos]. destruct (H s Hos) as [H1 H2]. pose proof (K3 o s Ho Hos) as Hk.
          assert (G : exists w, mapM f slots = Err (EValue w)).
          { clear - Q H1 H2 Hk. induction slots as [ | [t x] slots IH]; [destruct Hk | ]. cbn [mapM]. destruct Hk as [<- | Hk]; cbn [fst] in *.
            - destruct (Q t x) as [_ Q2]. destruct Q2 as [w ->]; auto. cbn [bind]. eauto.
            - destruct (Q t x) as [Q1 Q2]. destruct (in_dec string_dec t names); [destruct Q1 as [r ->]; auto | ].
              + cbn [bind]. destruct (IH Hk) as [w ->]. cbn [bind]. eauto.
              + destruct (in_dec string_dec t removed); [destruct Q1 as [r ->]; auto | destruct Q2 as [w ->]; auto; cbn [bind]; eauto].
                cbn [bind]. destruct (IH Hk) as [w ->]. cbn [bind]. eauto. }
          destruct G as [w ->]. cbn [bind]. eauto.
        - assert (A : forall s, In s (dkeys slots) -> In s names \/ In s removed).
          { intros s Hk. destruct (in_dec string_dec s names); auto. destruct (in_dec string_dec s removed); auto. destruct H.
            apply in_keys_dget in Hk as [o G]. destruct (K2 s o G) as [Ho Hos]. exists o. split; auto. intros s' E. unfold named in Hos. assert (s' = s) by congruence. subst. auto. }
          assert (G : exists r, mapM f slots = Ok r).
          { clear - Q A. induction slots as [ | [t x] slots IH]; [simpl; eauto | ]. cbn [mapM]. destruct (Q t x) as [Q1 _].
            destruct Q1 as [r ->]; [apply A; left; auto | ]. cbn [bind]. destruct IH as [l ->]; [intros s Hk; apply A; right; auto | ]. cbn [bind]. eauto. }
          destruct G as [r ->]. cbn [bind]. eauto. }
      split; intros H H'; destruct (P H) as (final & -> & Pf); cbn [bind]; destruct (T final Pf) as [T1 T2].
      * destruct (T1 H') as [w ->]. eauto.
      * destruct (T2 H') as [l ->]. eauto.
    + assert (U : of_no_slot removed names (do_offsets d)).
      { assert (exists o, In o (do_offsets d) /\ has_slot o = false) as (o & Ho & E).
        { clear - Hs. induction (do_offsets d) as [ | o l IH]; [discriminate | ]. cbn [forallb] in Hs. destruct (has_slot o) eqn:E; [ | exists o; simpl; auto].
          destruct (IH Hs) as (o' & H1 & H2). exists o'. simpl. auto. }
        exists o. split; auto. intros s H. apply ostr_named in H. unfold has_slot in E. rewrite H in E. discriminate. }
      split; intros H H'; [ | contradiction]. destruct (P H) as (final & -> & _). cbn [bind]. eauto.
Qed.
