(** Proofs: the editor's remove_slots and remove_attachments, called by themselves. *)
From Verif Require Import PyBase PyFacts Json Version Graph SpecGraph Classes ClassFacts DocFacts ReloadFacts SpineGraph SpecSpine
  DrawOrder SpecDraw DrawFacts DrawAny AnimData AnimFacts Editor SpecAnim SkinFacts SpecEditor SpecFail EditorData EditorOut EditorHist EditorFail SpecRefs.
Open Scope string_scope.
Open Scope list_scope.

Lemma Forall2_mapped : forall A (R : A -> A -> Prop) f l, (forall x, In x l -> R x (f x)) -> Forall2 R l (map f l).
Proof. intros A R f l H. induction l as [ | x l IH]; constructor; [apply H; left; auto | apply IH; intros y Hy; apply H; right; auto]. Qed.

Section Slots.
  Variables (ids names : list string) (N : NoDup names).
  Let f := remove_offsets_with_ids ids names.

  Lemma computable_iff : forall k, computable ids names k <-> exists k', f k = (k', Ok tt).
  Proof.
    intros k. destruct (remove_offsets_any ids names k N) as (A & B & C). split; [intros [P Q]; auto | ].
    intros [k' E]. unfold f in E. destruct (not_by_int_dec names k N) as [P | P]; [destruct (A P) as [w W]; congruence | ].
    split; auto. intros Q. destruct (B P Q) as [w W]. congruence.
  Qed.
  (** The draw orders of each animation keep their number, and the rest of it stays *)
  Lemma draw_shape : forall l l' r, dmapM_inplace (remove_draw_order_with_ids ids names) l = (l', r) ->
    Forall2 (fun x y => fst y = fst x /\ other_fields (snd x) (snd y) /\ length (an_drawOrder (snd y)) = length (an_drawOrder (snd x))) l l'.
  Proof.
    assert (L : forall A (g : A -> A * res unit) k k' r, mapM_inplace g k = (k', r) -> length k' = length k).
    { intros A g. induction k as [ | x k IH]; intros k' r E; cbn [mapM_inplace] in E; [injection E as <- _; auto | ].
      destruct (g x) as [y [u | e]]; [ | injection E as <- _; auto]. destruct (mapM_inplace g k) as [k2 r2] eqn:E2. injection E as <- _. simpl. f_equal. eauto. }
    unfold dmapM_inplace. induction l as [ | [i a] l IH]; intros l' r E; cbn [mapM_inplace fst snd] in E; [injection E as <- _; constructor | ].
    unfold remove_draw_order_with_ids in E at 1. destruct (mapM_inplace (remove_offsets_with_ids ids names) (an_drawOrder a)) as [k r1] eqn:E1.
    assert (R : forall m, Forall2 (fun x y : string * animation => fst y = fst x /\ other_fields (snd x) (snd y) /\ length (an_drawOrder (snd y)) = length (an_drawOrder (snd x))) m m).
    { intros m. induction m; constructor; auto. unfold other_fields. auto 12. }
    assert (H : forall a', a' = mkAnimation (an_ik a) k (an_bones a) (an_slots a) (an_events a) (an_transform a) (an_path a) (an_deform a) ->
      other_fields a a' /\ length (an_drawOrder a') = length (an_drawOrder a)).
    { intros a' ->. unfold other_fields. cbn. split; [auto 12 | eauto]. }
    destruct r1 as [u | e].
    - destruct (mapM_inplace _ l) as [l2 r2] eqn:E2. injection E as <- _. constructor; [cbn [fst snd]; split; auto | ]. eapply IH; eauto.
    - injection E as <- _. constructor; [cbn [fst snd]; split; auto | ]. apply R.
  Qed.

  Lemma slots_run : forall e, exists e' r, ed_remove_slots ids names e = (e', r) /\ slots_unreferenced ids e e' /\
    ((r = Ok tt /\ Forall2 (fun k k' => f k = (k', Ok tt)) (draw_keys (e_data e)) (draw_keys (e_data e'))) \/
     (exists before k after before' x, r = Err x /\ draw_keys (e_data e) = before ++ k :: after /\ f k = (k, Err x) /\
        Forall2 (fun k k' => f k = (k', Ok tt)) before before' /\ draw_keys (e_data e') = before' ++ k :: after)).
  Proof.
    intros [[sk v d] im g]. unfold ed_remove_slots, modify_data, on_data, mbind, clean_draw_order_refs. cbn [e_data e_doc doc_data doc_skeleton doc_version e_images e_graph].
    set (d1 := clean_slots_in_animations ids (clean_slots_in_skins ids d)).
    assert (K : flat_map (fun kv => an_drawOrder (snd kv)) (d_animations d1) = draw_keys d).
    { unfold d1, draw_keys, clean_slots_in_animations. cbn [d_animations set_animations]. unfold dmap. rewrite flat_map_concat_map, map_map, <- flat_map_concat_map. apply flat_map_ext. auto. }
    destruct (dmapM_inplace (remove_draw_order_with_ids ids names) (d_animations d1)) as [l r] eqn:E. eexists _, r. split; [reflexivity | ]. split.
    - constructor; cbn [e_data e_doc doc_data doc_skeleton doc_version e_images e_graph]; [constructor; reflexivity | reflexivity | | ].
      + cbn. apply Forall2_mapped. intros s _. split; reflexivity.
      + cbn [d_animations set_animations]. pose proof (draw_shape _ _ _ E) as F. unfold d1, clean_slots_in_animations in F. cbn [d_animations set_animations clean_slots_in_skins set_skins] in F.
        unfold dmap in F. apply Forall2_map_l in F. eapply Forall2_impl; [ | exact F]. intros [i a] [i' a'] (H1 & (O1 & O2 & O3 & O4 & O5 & O6 & O7) & H3). cbn in *.
        split; [auto | ]. unfold animation_less, timelines_kept. auto 12.
    - unfold e_data, draw_keys at 2. cbn [e_doc doc_data d_animations set_animations]. destruct (visit_keys ids names (d_animations d1)) as [(l' & E' & F) | (b & x & a & b' & l' & er & E1 & Ex & F & E2 & E')]; rewrite E' in E; injection E as <- <-; rewrite K in *.
      + left. split; [auto | exact F].
      + right. exists b, x, a, b', er. auto 8.
  Qed.

  Theorem remove_slots_works : forall e, (forall k, In k (draw_keys (e_data e)) -> computable ids names k) ->
    exists e', ed_remove_slots ids names e = (e', Ok tt) /\ slots_unreferenced ids e e' /\
      Forall2 (fun k k' => f k = (k', Ok tt)) (draw_keys (e_data e)) (draw_keys (e_data e')).
  Proof.
    intros e H. destruct (slots_run e) as (e' & r & E & U & [[-> F] | (b & k & a & b' & x & -> & K & Ek & _)]); [eauto | ].
    assert (C : computable ids names k) by (apply H; rewrite K; apply in_or_app; right; left; auto).
    apply computable_iff in C as [k' C]. congruence.
  Qed.
  Theorem remove_slots_fails : forall e before k after, draw_keys (e_data e) = before ++ k :: after ->
    (forall k', In k' before -> computable ids names k') -> ~ computable ids names k ->
    exists e' x before', ed_remove_slots ids names e = (e', Err x) /\ slots_unreferenced ids e e' /\
      draw_keys (e_data e') = before' ++ k :: after /\ Forall2 (fun k k' => f k = (k', Ok tt)) before before' /\
      (not_by_int names (do_offsets k) -> exists w, x = EType w) /\ (~ not_by_int names (do_offsets k) -> exists w, x = EValue w).
  Proof.
    intros e before k after K Hb Hk. destruct (slots_run e) as (e' & r & E & U & [[-> F] | (b & k0 & a & b' & x & -> & K0 & Ek & F & K')]).
    - exfalso. apply Hk, computable_iff. rewrite K in F. apply Forall2_app_inv_l in F as (l1 & l2 & _ & F & _). inversion F; subst. eauto.
    - destruct (remove_offsets_any ids names k N) as (A & B & C).
      assert (G : exists w, f k = (k, Err w)).
      { destruct (not_by_int_dec names k N) as [P | P]; [destruct (A P) as [w W]; eauto | ].
        destruct (no_slot_dec ids names (do_offsets k)) as [Q | Q]; [destruct (B P Q) as [w W]; eauto | ]. destruct Hk. split; auto. }
      destruct (first_same f b k0 a before k after x) as (-> & -> & ->); auto.
      + congruence.
      + intros y Hy. clear -F Hy. induction F as [ | ? ? ? ? ? ? IHF]; [destruct Hy | ]. destruct Hy as [-> | Hy]; eauto.
      + intros y Hy. apply computable_iff; auto.
      + exists e', x, b'. do 4 (split; [assumption | ]). unfold f in *. split.
        * intros P. destruct (A P) as [w W]. exists w. congruence.
        * intros P. destruct (no_slot_dec ids names (do_offsets k)) as [Q | Q]; [destruct (B P Q) as [w W]; exists w; congruence | ]. destruct (C P Q) as [? W]. congruence.
  Qed.
End Slots.

Theorem remove_attachments_works : forall e0 ops e ids, history e0 ops e ->
  exists e', ed_remove_attachments ids e = (e', Ok tt) /\ attachments_unreferenced ids e e'.
Proof.
  intros e0 ops e ids H. destruct (last_built_ex _ _ _ H) as [eb B]. destruct (history_state _ _ _ _ B) as (ss & [D S]). clear -D.
  destruct e as [[sk v d] im g]. unfold ed_remove_attachments, modify_data, on_data, mbind. cbn [e_data e_doc doc_data doc_skeleton doc_version e_images e_graph] in *.
  eexists. split; [reflexivity | ]. constructor; cbn [e_data e_doc doc_data doc_skeleton doc_version e_images e_graph]; [constructor; reflexivity | | | ].
  - cbn. apply Forall2_mapped. intros s _. destruct (ostr s "attachment") as [a | ] eqn:E.
    + change (graph_id T_ATTACHMENT a) with (att_id a). destruct (smem (att_id a) ids) eqn:M.
      * apply smem_in in M. split; [reflexivity | ]. split; [intros k Hk; rewrite oget_oset; eqb_cases k "attachment"; congruence | ].
        split; [intros _; rewrite oget_oset; reflexivity | intros K; destruct (K a E M)].
      * apply smem_nin in M. split; [reflexivity | ]. split; [auto | ]. split; [ | auto]. intros (b & Eb & Hb). congruence.
    + split; [reflexivity | ]. split; [auto | ]. split; [ | auto]. intros (b & Eb & Hb). congruence.
  - cbn. apply Forall2_mapped. intros s _. split; reflexivity.
  - cbn. rewrite steps_dmap. unfold dmap. apply Forall2_mapped. intros [i a] Hi. cbn [fst snd]. split; [auto | ].
    destruct (steps_rest ids (d_skins d) a) as (I1 & I2 & I3 & I4 & I5 & I6 & I7). unfold animation_emptied, timelines_kept. rewrite I1, I2, I3, I4, I5, I6, I7.
    split; [auto 8 | ]. split; [auto | ]. split; [auto | ]. rewrite steps_deform.
    2: { pose proof (di_anims _ _ D) as A. unfold dall in A. rewrite Forall_forall in A. exact (no_deform _ _ (A _ Hi)). }
    apply Forall2_mapped. intros [k x] _. cbn [fst snd]. split; [auto | ]. unfold is_skin, skin_named. cbn [fst snd].
    split; intros K.
    + destruct (existsb _ (d_skins d)) eqn:X; [reflexivity | ]. destruct K as (s & Hs & En). assert (Y : existsb (fun s => opt_eqb (sk_name s) (Some k)) (d_skins d) = true).
      { apply existsb_exists. exists s. split; auto. rewrite En. apply String.eqb_refl. } congruence.
    + destruct (existsb _ (d_skins d)) eqn:X; [ | reflexivity]. destruct K. apply existsb_exists in X as (s & Hs & En). exists s. split; auto.
      destruct (sk_name s) as [n | ]; [ | discriminate En]. apply String.eqb_eq in En. congruence.
Qed.
