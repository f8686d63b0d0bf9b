(** Proofs: iteration orders, when a clean-up succeeds, a second clean-up. *)
From Verif Require Import PyBase PyFacts Json Version Graph SpecGraph GraphFacts GraphApi GraphRemove IdFacts Classes ClassFacts DocFacts ReloadFacts SpineGraph SpecSpine
  SpineFacts BuildFacts BuildTotal SpineRemove DrawOrder SpecDraw DrawFacts AnimData AnimFacts Editor SpecAnim SkinFacts SpecEditor EditorGraph EditorData EditorBuild EditorClean EditorOut EditorHist EditorFacts EditorRemoved EditorKeep EditorImages.
From Coq Require Import Sorting.Sorted Permutation.
Open Scope string_scope.

(** ** Iteration orders *)
Lemma clean_order : forall e bs ss is en1 en2, st e bs ss is -> order_ok en1 -> order_ok en2 ->
  fst (clean_animation en1 e) = fst (clean_animation en2 e) /\ same_result same_report (snd (clean_animation en1 e)) (snd (clean_animation en2 e)).
Proof.
  intros e bs ss is en1 en2 [D S] O1 O2. destruct (get_unused_slots_and_attachments (e_data e)) as [[inv atts] | x] eqn:A.
  2: { rewrite (clean_fails en1 e x A), (clean_fails en2 e x A). split; reflexivity. }
  destruct (clean_run e bs ss is D S inv atts A) as (leafs & orphans & imgs & _ & R). rewrite (R en1 O1), (R en2 O2).
  destruct (mapM (mk_obj CSlot) (map (obj_json (e_ver e)) (filter (keep (inv ++ leafs)%list) ss))) as [l | x]; [ | split; reflexivity].
  set (U := set_union inv (map slot_base leafs)).
  rewrite (clean_data_same (en1 2 U) (en2 2 U)).
  2: { intros x. rewrite !in_order; auto. tauto. }
  destruct (clean_data _ _ _ _ _ _ _) as [d' [u | x]]; [ | split; reflexivity]. split; [reflexivity | ]. split; [ | apply Permutation_refl].
  cbn [fst]. rewrite (O1 2 U), (O2 2 U). apply Permutation_refl.
Qed.
Lemma erase_skins_order : forall e bs ss is en1 en2 l safe, st e bs ss is -> order_ok en1 -> order_ok en2 ->
  fst (erase_skins en1 l safe e) = fst (erase_skins en2 l safe e) /\
  same_result (fun r r' => same_report (fst r) (fst r') /\ snd r = snd r') (snd (erase_skins en1 l safe e)) (snd (erase_skins en2 l safe e)).
Proof.
  intros e bs ss is en1 en2 l safe S O1 O2. unfold erase_skins.
  unfold mbind at 1 7 13 19. destruct (mforeach (fun n => on_data (remove_skin n)) l e) as [e1 [removed | x]] eqn:F; [ | split; reflexivity].
  apply foreach_removal in F as (d1 & R & ->).
  unfold mget. unfold mbind at 1 6 11 16. cbv beta iota. cbn [e_doc].
  unfold mlift. unfold mbind at 1 5 9 13. cbv beta iota.
  destruct (create_from_json_data (document_json (with_data e d1))) as [g | x] eqn:B; [ | split; reflexivity].
  unfold mbind at 1 4 7 10. unfold on_graph, mput. cbv beta iota. cbn [e_doc e_images].
  destruct safe.
  - split; [reflexivity | ]. cbn. unfold mbind, mret, clean_images_references. cbn. split; [split; apply Permutation_refl | reflexivity].
  - pose proof (st_rebuild _ _ _ _ _ _ _ _ S R B) as S1. destruct (clean_order _ _ _ _ en1 en2 S1 O1 O2) as [C1 C2].
    unfold mbind. destruct (clean_animation en1 _) as [e2 r2]. destruct (clean_animation en2 _) as [e3 r3]. cbn [fst snd] in C1, C2. subst e3.
    destruct r2 as [r2 | x], r3 as [r3 | y]; cbn [same_result] in C2; try contradiction.
    + unfold clean_images_references, mret. cbn. auto.
    + subst y. split; reflexivity.
Qed.
Lemma erase_animations_order : forall e bs ss is en1 en2 l strict safe, st e bs ss is -> order_ok en1 -> order_ok en2 ->
  fst (erase_animations en1 l strict safe e) = fst (erase_animations en2 l strict safe e) /\
  same_result (fun r r' => fst r = fst r' /\ same_report (snd r) (snd r')) (snd (erase_animations en1 l strict safe e)) (snd (erase_animations en2 l strict safe e)).
Proof.
  intros e bs ss is en1 en2 l strict safe S O1 O2. unfold erase_animations.
  unfold mbind at 1 4 7 10. destruct (on_data (erase_raw_animations_data l strict) e) as [e1 [u | x]] eqn:F; [ | split; reflexivity].
  unfold on_data in F. destruct (erase_raw_animations_data l strict (e_data e)) as [d1 r1] eqn:R. injection F as <- ->. apply erase_raw_data in R. subst d1.
  destruct safe.
  - split; [reflexivity | ]. cbn. split; [reflexivity | split; apply Permutation_refl].
  - pose proof (st_anims _ _ _ _ l S) as S1. destruct (clean_order _ _ _ _ en1 en2 S1 O1 O2) as [C1 C2]. unfold put_data, with_data, not_erased in C1, C2.
    unfold mbind. destruct (clean_animation en1 _) as [e2 r2]. destruct (clean_animation en2 _) as [e3 r3]. cbn [fst snd] in C1, C2. subst e3.
    destruct r2 as [r2 | x], r3 as [r3 | y]; cbn [same_result] in C2; try contradiction.
    + cbn. auto.
    + subst y. split; reflexivity.
Qed.
Lemma estep_order : forall e bs ss is op op', st e bs ss is -> eop_ok op -> eop_ok op' -> same_call op op' -> estep e op = estep e op'.
Proof.
  intros e bs ss is op op' S O O' C. destruct op as [en l safe | en l strict safe | en | sx sy], op' as [en' l' safe' | en' l' strict' safe' | en' | sx' sy']; cbn in C; try contradiction.
  - destruct C as [-> ->]. cbn [estep]. destruct (erase_skins_order _ _ _ _ en en' l' safe' S O O') as [C1 C2].
    destruct (erase_skins en l' safe' e) as [e1 r1], (erase_skins en' l' safe' e) as [e2 r2]. cbn in C1, C2. subst. destruct r1, r2; try contradiction; cbn in *; congruence.
  - destruct C as (-> & -> & ->). cbn [estep]. destruct (erase_animations_order _ _ _ _ en en' l' strict' safe' S O O') as [C1 C2].
    destruct (erase_animations en l' strict' safe' e) as [e1 r1], (erase_animations en' l' strict' safe' e) as [e2 r2]. cbn in C1, C2. subst. destruct r1, r2; try contradiction; cbn in *; congruence.
  - cbn [estep]. destruct (clean_order _ _ _ _ en en' S O O') as [C1 C2].
    destruct (clean_animation en e) as [e1 r1], (clean_animation en' e) as [e2 r2]. cbn in C1, C2. subst. destruct r1, r2; try contradiction; cbn in *; congruence.
  - destruct C as [-> ->]. reflexivity.
Qed.
Theorem history_order : forall e0 ops e, history e0 ops e -> forall ops', Forall eop_ok ops' -> Forall2 same_call ops ops' -> history e0 ops' e.
Proof.
  intros e0 ops e H. induction H as [H | ops e op e' H IH O E]; intros ops' F C.
  - inversion C; subst. constructor; auto.
  - inversion C as [ | x y l l' C1 C2]; subst. apply Forall_cons_iff in F as [F1 F2]. econstructor; [apply IH; eauto | auto | ].
    destruct (last_built_ex _ _ _ H) as [eb B]. destruct (history_state _ _ _ _ B) as [ss S]. rewrite <- (estep_order _ _ _ _ _ _ S O F1 C1). auto.
Qed.
Theorem reports_order : forall e0 ops e en1 en2, history e0 ops e -> order_ok en1 -> order_ok en2 ->
  (fst (clean_animation en1 e) = fst (clean_animation en2 e) /\
   same_result same_report (snd (clean_animation en1 e)) (snd (clean_animation en2 e))) /\
  (forall l safe, fst (erase_skins en1 l safe e) = fst (erase_skins en2 l safe e) /\
     same_result (fun r r' => same_report (fst r) (fst r') /\ snd r = snd r') (snd (erase_skins en1 l safe e)) (snd (erase_skins en2 l safe e))) /\
  (forall l strict safe, fst (erase_animations en1 l strict safe e) = fst (erase_animations en2 l strict safe e) /\
     same_result (fun r r' => fst r = fst r' /\ same_report (snd r) (snd r')) (snd (erase_animations en1 l strict safe e)) (snd (erase_animations en2 l strict safe e))).
Proof.
  intros e0 ops e en1 en2 H O1 O2. destruct (last_built_ex _ _ _ H) as [eb B]. destruct (history_state _ _ _ _ B) as [ss S].
  split; [eapply clean_order; eauto | split; intros; [eapply erase_skins_order; eauto | eapply erase_animations_order; eauto]].
Qed.

(** ** When a clean-up succeeds *)
Lemma analysable_split : forall d, analysable d <-> colors_ok d /\ timelines_ok d /\ something_to_show d.
Proof.
  intros d. unfold analysable, colors_ok, timelines_ok, something_to_show. split.
  - intros [H K]. split; [auto | split].
    + intros a n t Ha Ht. destruct (K a Ha) as [K1 _]. destruct (K1 n t Ht) as (Hn & s & Hs & <-). split; auto. apply in_map. auto.
    + intros a Ha. apply (K a Ha).
  - intros (H & K & L). split; auto. intros a Ha. split; auto. intros n t Ht. destruct (K a n t Ha Ht) as [Hn Hi]. apply in_map_iff in Hi as (s & Es & Hs). eauto.
Qed.
Lemma mapM_inplace_total : forall A (f : A -> A * res unit) l, (forall x, In x l -> exists y, f x = (y, Ok tt)) -> exists l', mapM_inplace f l = (l', Ok tt).
Proof.
  intros A f l. induction l as [ | x l IH]; intros H; cbn [mapM_inplace]; [eauto | ].
  destruct (H x) as [y E]; [left; auto | ]. rewrite E. destruct IH as [l' E']; [intros; apply H; right; auto | ]. rewrite E'. eauto.
Qed.
Lemma draw_refs_total : forall rem names (d : anim_data), NoDup names ->
  (forall a k o, in_animations d a -> In k (an_drawOrder a) -> In o (do_offsets k) -> exists s z, offset_of o (s, z) /\ In s names) ->
  exists d', clean_draw_order_refs rem names d = (d', Ok tt).
Proof.
  intros rem names d N H. unfold clean_draw_order_refs, dmapM_inplace.
  destruct (mapM_inplace_total _ (fun kv : string * animation => let '(v, r) := remove_draw_order_with_ids rem names (snd kv) in (fst kv, v, r)) (d_animations d)) as [l E].
  - intros [i a] Hi. cbn [fst snd]. unfold remove_draw_order_with_ids.
    destruct (mapM_inplace_total _ (remove_offsets_with_ids rem names) (an_drawOrder a)) as [l E].
    + intros k Hk. apply remove_offsets_when; auto.
      * intros o Ho. destruct (H a k o) as (s & z & Hs & _); eauto. exists i. auto.
      * intros o s Ho Es. destruct (H a k o) as (s' & z & [Hs _] & Hi'); eauto. { exists i. auto. } cbn [fst] in Hs. rewrite Es in Hs. injection Hs as ->. auto.
    + rewrite E. eauto.
  - rewrite E. eauto.
Qed.
(** Slots with attachments have bones: the scales of their images were read.  So had the slots that
    have edges to attachments, and slots without such edges are leafs. *)
Lemma att_boned : forall e0 s k o, loaded e0 -> In s (d_slots (e_data e0)) -> skin_attachment (e_data e0) (slot_name s) k o -> boned s.
Proof.
  intros e0 s k o L Hs (sk & m & Hk & Hm & Ho). destruct (loaded_sync e0 L) as (_ & _ & Sy). pose proof (sync_distinct_slots _ _ _ _ _ _ Sy) as Ds.
  pose proof L as (j & _ & Hj). apply mk_editor_inv in Hj as (_ & E & _). unfold get_images_references in E.
  destruct (foldM_each _ _ _ _ _ _ E sk Hk) as (b1 & b2 & E1). destruct (ver_ge (doc_version (e_doc e0)) SPINE_3_8); [ | discriminate].
  destruct (foldM_each _ _ _ _ _ _ E1 (slot_name s, m) Hm) as (b3 & b4 & E2). unfold add_slot_images in E2. cbn [fst snd] in E2. apply bind_ok in E2 as (sc & E2 & _).
  unfold get_slot_custom_scale in E2. destruct (get_slot (doc_data (e_doc e0)) (slot_name s)) as [s' | ] eqn:G; [ | discriminate].
  apply find_some in G as [H1 H2]. apply String.eqb_eq in H2. rewrite (unique_name _ _ _ Ds H1 Hs H2) in E2. intros N. apply bind_ok in E2 as (sc' & _ & E2).
  unfold ostr in E2. rewrite N in E2. discriminate.
Qed.
Definition edges_old (e0 e : editor) : Prop := forall s k, edge (e_graph e) (slot_id s) (att_id k) -> exists o, skin_attachment (e_data e0) s k o.
Theorem history_old : forall e0 ops e eb, last_built e0 ops e eb ->
  exists ss, st e (d_bones (e_data eb)) ss (d_ik (e_data eb)) /\ since e0 e ss /\ edges_old e0 e.
Proof.
  intros e0 ops e eb. apply (history_all e0 (fun e _ _ _ => edges_old e0 e)).
  - intros L. pose proof L as (j & _ & Hj). apply mk_editor_inv in Hj as (_ & _ & B). destruct (loaded_sync e0 L) as (D & _ & _).
    pose proof (built_filed (e_doc e0) (e_graph e0) (e_images e0) D B) as F. destruct e0; exact F.
  - clear ops e eb. intros e bs ss is o e1 bs1 ss1 is1 e2 ss2 S I F Q S1 I1 M.
    assert (F1 : edges_old e0 e1).
    { destruct Q as [ | l | sx sy l E | l d1 removed g R B]; auto. intros s k H. apply built_filed with (im := e_images e) in B; [ | apply S1]. destruct (B s k H) as [x Hx].
      destruct (si_desc _ _ _ I1 s k x Hx) as (x0 & H0 & _). eauto. }
    assert (F2 : edges_old e0 e2).
    { destruct M as [ | enum e2 inv atts leafs orphans imgs rem Oo C]; auto. intros s k H. rewrite (co_graph _ _ _ _ _ _ _ _ _ _ _ _ C) in H. apply edge_minus in H as (H & _). auto. }
    destruct o; exact F2.
Qed.
Lemma kept_bones : forall e0 e bs ss is, loaded e0 -> st e bs ss is -> since e0 e ss -> edges_old e0 e ->
  forall inv atts leafs, (forall s, is_leaf (e_graph e) inv atts s -> In s leafs) -> Forall boned (filter (keep (inv ++ leafs)%list) ss).
Proof.
  intros e0 e bs ss is L [_ S] I F inv atts leafs Hl. rewrite Forall_forall. intros s Hs. apply filter_In in Hs as [Hs Hk]. unfold keep in Hk. apply negb_true_iff, smem_nin in Hk.
  rewrite in_app_iff in Hk. pose proof (si_ss _ _ _ I) as Fs. rewrite Forall_forall in Fs.
  assert (K : exists s0, In s0 (d_slots (e_data e0)) /\ slot_name s0 = slot_name s /\ oget s0 "bone" = oget s "bone").
  { destruct (Fs s Hs) as (x0 & H0 & [-> | [-> _]]); exists x0; split; auto. unfold slot_name, ostr. rewrite !oget_oset. cbn [String.eqb Ascii.eqb Bool.eqb]. auto. }
  destruct K as (s0 & H0 & En & Eb). unfold boned. rewrite <- Eb. intros N. apply Hk. right. apply Hl. split; [ | split; [tauto | ]].
  - assert (Hn : In (slot_name s) (map slot_name ss)) by (apply in_map; auto). eapply sync_has; eauto.
  - intros k Hk'. destruct (F _ _ Hk') as [o Ho]. rewrite <- En in Ho. destruct (att_boned _ _ _ _ L H0 Ho N).
Qed.
Lemma history_loaded : forall e0 ops e, history e0 ops e -> loaded e0.
Proof. intros e0 ops e H. induction H; auto. Qed.
Lemma clean_total : forall enum e bs ss is, st e bs ss is -> order_ok enum -> analysable (e_data e) ->
  (forall inv atts leafs, (forall s, is_leaf (e_graph e) inv atts s -> In s leafs) -> Forall boned (filter (keep (inv ++ leafs)%list) ss)) -> draw_orders_ok (e_data e) ->
  exists e' r, clean_animation enum e = (e', Ok r).
Proof.
  intros enum e bs ss is [D S] O A Bo Dr. pose proof (sync_distinct_slots _ _ _ _ _ _ S) as Ds. pose proof (dinv_timelines _ _ D) as Dt.
  destruct (proj2 (unused_total _ Ds Dt) A) as [[inv atts] U].
  destruct (clean_run e bs ss is D S inv atts U) as (leafs & orphans & imgs & Ch & R). rewrite (R enum O). clear R.
  assert (Ls : Forall (loaded_obj (e_ver e) CSlot) (filter (keep (inv ++ leafs)%list) ss)).
  { pose proof (sy_slots_ok _ _ _ _ _ _ S) as L. rewrite Forall_forall in *. intros s H. apply filter_In in H as [H _]. auto. }
  destruct (read_slots (e_ver e) _ Ls) as [[_ R] | [K _]].
  2: { destruct K. apply (Bo inv atts). intros s. apply (ch_leafs _ _ _ _ _ _ Ch). }
  rewrite R. unfold clean_data.
  set (rem := enum 2 (set_union inv (map slot_base leafs))).
  match goal with |- context [clean_draw_order_refs rem ?n ?d] => destruct (draw_refs_total rem n d) as [d2 E2]; [exact Ds | | rewrite E2; eauto] end.
  intros a k o [i Ha]. unfold clean_slots_in_animations in Ha. cbn [d_animations set_animations] in Ha. unfold dmap in Ha. apply in_map_iff in Ha as ([i0 a0] & Ea & Ha). cbn [fst snd] in Ea. injection Ea as _ <-.
  cbn [an_drawOrder remove_deforms_using_slots]. intros Hk Ho. apply (Dr a0 k o); auto. exists i0. exact Ha.
Qed.
Theorem clean_works : forall e0 ops e enum, history e0 ops e -> order_ok enum -> draw_orders_ok (e_data e) -> analysable (e_data e) ->
  exists e' r, clean_animation enum e = (e', Ok r).
Proof.
  intros e0 ops e enum H O Dr A. destruct (last_built_ex _ _ _ H) as [eb B]. destruct (history_old _ _ _ _ B) as (ss & S & I & F).
  apply (clean_total enum e _ ss _ S O A); auto. eapply kept_bones; eauto using history_loaded.
Qed.
(** The analysis comes first: if it fails, nothing has happened. *)
Theorem clean_refuses : forall e0 ops e enum, history e0 ops e -> ~ analysable (e_data e) -> exists x, clean_animation enum e = (e, Err x).
Proof.
  intros e0 ops e enum H A. destruct (last_built_ex _ _ _ H) as [eb B]. destruct (history_state _ _ _ _ B) as (ss & [D S]).
  destruct (get_unused_slots_and_attachments (e_data e)) as [r | x] eqn:U; [ | exists x; apply clean_fails; auto].
  destruct A. apply unused_total; eauto using dinv_timelines. eapply sync_distinct_slots; eauto.
Qed.

(** What a document needs to stay ready for clean-ups *)
Lemma color_from : forall d0 s, colors_ok d0 -> slot_from d0 s -> readable_color s.
Proof.
  intros d0 s H (s0 & H0 & [-> | [-> _]]); [apply H; auto | ]. specialize (H s0 H0). unfold readable_color, ostr in *. rewrite oget_oset. cbn. auto.
Qed.
Lemma names_of_plain : forall enum e0 e e' bs ss is inv atts leafs orphans imgs rem, plain_slots (e_data e0) -> since e0 e ss -> st e bs ss is ->
  clean_ok enum e e' bs ss is inv atts leafs orphans imgs rem ->
  map slot_name (d_slots (e_data e')) = without rem (map slot_name (d_slots (e_data e))).
Proof.
  intros enum e0 e e' bs ss is inv atts leafs orphans imgs rem Pl I S C. rewrite (clean_names _ _ _ _ _ _ _ _ _ _ _ _ S C). symmetry. apply without_same. eapply plain_rem; eauto.
Qed.
Theorem history_ready : forall e0 ops e, plain_slots (e_data e0) -> ready (e_data e0) -> history e0 ops e -> ready (e_data e).
Proof.
  intros e0 ops e Pl (R1 & R2 & R3) H. destruct (last_built_ex _ _ _ H) as [eb B]. split.
  { destruct (history_since _ _ _ _ B) as (ss & S & I). intros s Hs. pose proof (si_slots _ _ _ I) as F. rewrite Forall_forall in F. eapply color_from; eauto. }
  apply (history_all e0 (fun e _ _ _ => timelines_ok (e_data e) /\ draw_orders_ok (e_data e))) in B as (ss & S & I & K); auto.
  clear - Pl. intros e bs ss is o e1 bs1 ss1 is1 e2 ss2 S I (K1 & K2) Q S1 I1 M.
  assert (R1 : timelines_ok (e_data e1) /\ draw_orders_ok (e_data e1)).
  { destruct Q as [ | l | sx sy l R | l d1 removed g R B]; auto.
    - split.
      + intros a n t [i Ha] Ht. apply filter_In in Ha as [Ha _]. apply (K1 a n t); auto. exists i. auto.
      + intros a k x [i Ha] Hk Hx. apply filter_In in Ha as [Ha _]. apply (K2 a k); auto. exists i. auto.
    - cbn [e_data e_doc with_data doc_data]. clear - R K1 K2. induction R as [ | n l d da db r rs R1 R2 IH]; auto. apply IH.
      + destruct (remove_skin_rest _ _ _ _ R1) as (source & _ & _ & (_ & Hs & _) & _ & An). intros a n0 t [i Ha] Ht. destruct (Forall2_in_r _ _ _ _ _ An _ Ha) as ([i' a'] & H1 & _ & W). cbn [snd] in W.
        destruct W as (_ & _ & _ & W & _). rewrite W in Ht. rewrite Hs. apply (K1 a' n0 t); auto. exists i'. auto.
      + destruct (remove_skin_rest _ _ _ _ R1) as (source & _ & _ & (_ & Hs & _) & _ & An). intros a k x [i Ha] Hk Hx. destruct (Forall2_in_r _ _ _ _ _ An _ Ha) as ([i' a'] & H1 & _ & W). cbn [snd] in W.
        destruct W as (_ & W & _). rewrite W in Hk. rewrite Hs. apply (K2 a' k); auto. exists i'. auto. }
  assert (R2 : timelines_ok (e_data e2) /\ draw_orders_ok (e_data e2)).
  { destruct M as [ | enum e2 inv atts leafs orphans imgs rem Oo C]; auto. destruct R1 as [T1 D1].
    pose proof (names_of_plain _ _ _ _ _ _ _ _ _ _ _ _ _ Pl I1 S1 C) as En. pose proof (co_data _ _ _ _ _ _ _ _ _ _ _ _ C) as Cd.
    split; unfold timelines_ok, draw_orders_ok; rewrite En.
    - intros a n t Ha Ht. destruct (cleaned_anim _ _ _ _ _ _ _ _ _ Cd Ha) as (a0 & Ha0 & Ca). rewrite (ca_slots _ _ _ _ _ _ Ca) in Ht. apply in_drop_keys in Ht as [Ht Hr].
      destruct (T1 a0 n t Ha0 Ht) as [Hn Hi]. split; auto. apply in_without. auto.
    - intros a k x Ha Hk Hx. destruct (cleaned_anim _ _ _ _ _ _ _ _ _ Cd Ha) as (a0 & Ha0 & Ca).
      destruct (Forall2_in_r _ _ _ _ _ (ca_draw _ _ _ _ _ _ Ca) k Hk) as (k0 & Hk0 & Rk). apply remove_offsets_in_range in Rk as (_ & ms & Mo & _ & Q2).
      + destruct (Forall2_fwd _ _ _ _ _ Mo x Hx) as ([s z] & Hm & Ho). exists s, z. split; auto. apply Q2 in Hm. apply in_without. tauto.
      + destruct S1 as [_ S1]. eapply sync_distinct_slots; eauto. }
  destruct o; exact R2.
Qed.
Theorem clean_works_iff : forall e0 ops e enum, plain_slots (e_data e0) -> ready (e_data e0) -> history e0 ops e -> order_ok enum ->
  (something_to_show (e_data e) -> exists e' r, clean_animation enum e = (e', Ok r)) /\
  (~ something_to_show (e_data e) -> exists x, clean_animation enum e = (e, Err x)).
Proof.
  intros e0 ops e enum Pl Rd H O. pose proof (history_ready _ _ _ Pl Rd H) as (R1 & R2 & R3). split; intros K.
  - eapply clean_works; eauto. apply analysable_split. auto.
  - eapply clean_refuses; eauto. rewrite analysable_split. tauto.
Qed.

(** ** A second clean-up *)
Lemma remove_offsets_ints : forall removed names k k', remove_offsets_with_ids removed names k = (k', Ok tt) ->
  forall o, In o (do_offsets k') -> exists z, oget o "offset" = VInt z.
Proof.
  intros removed names k k' E o Ho. unfold remove_offsets_with_ids in E.
  destruct (let! slot_offsets := offsets_by_slot (do_offsets k) in _) as [l | e] eqn:El; [ | discriminate]. injection E as <-. cbn [do_offsets] in Ho.
  apply bind_ok in El as (slots & Es & El). apply bind_ok in El as (final & Ef & El). destruct (forallb has_slot (do_offsets k)); [ | discriminate]. apply offsets_by_slot_ok in Es as (N & K2 & _).
  unfold adjust_offsets in El. apply bind_ok in El as (adj & Ea & El). injection El as <-. apply filter_In in Ho as [Ho Hf]. apply in_map_iff in Ho as ([n x] & Ex & Hx). cbn in Ex. subst x.
  apply mapM_ok in Ea. destruct (Forall2_in_r _ _ _ _ _ Ea _ Hx) as ([n0 o0] & H0 & E0). destruct (smem n0 removed) eqn:Er.
  - injection E0 as <- <-. assert (G : dget n0 slots = Some o0) by (apply in_dget; auto). destruct (K2 n0 o0 G) as [_ Hn]. rewrite (proj2 (ostr_named _ _) Hn), Er in Hf. discriminate.
  - apply bind_ok in E0 as (i & _ & E0). apply bind_ok in E0 as (j & _ & E0). injection E0 as <- <-. rewrite oget_oset, String.eqb_refl. eauto.
Qed.
Lemma dset_same : forall A k (v : A) d, dget k d = Some v -> dset k v d = d.
Proof.
  intros A k v d. induction d as [ | [k' v'] d IH]; cbn [dget dset]; [discriminate | ]. destruct (String.eqb k k') eqn:E; [ | intros H; f_equal; auto].
  apply String.eqb_eq in E. subst. intros H. injection H as ->. auto.
Qed.
Lemma oset_same : forall o k v, oget o k = v -> v <> VNone -> oset o k v = o.
Proof.
  intros o k v H N. unfold oset. unfold oget in H. destruct (dget k (o_attrs o)) as [w | ] eqn:G; [ | congruence]. subst w. rewrite (dset_same _ _ _ _ G). destruct o. auto.
Qed.
Lemma index_at : forall l s i, NoDup l -> nth_error l i = Some s -> py_index l s = Ok (Z.of_nat i).
Proof.
  intros l s i N H. destruct (py_index_in l s) as [z E]; [eapply nth_error_In; eauto | ]. rewrite E. apply py_index_ok in E as (j & -> & Hj). do 2 f_equal.
  rewrite NoDup_nth_error in N. apply N; [apply nth_error_Some; congruence | congruence].
Qed.
Lemma survivors_nil : forall l, survivors [] l = l.
Proof. intros l. apply filter_all. auto. Qed.
Lemma draw_again : forall names k ms, NoDup names -> moves_of (do_offsets k) ms -> valid_moves names ms -> (forall s z, In (s, z) ms -> z <> 0%Z) ->
  (forall o, In o (do_offsets k) -> exists z, oget o "offset" = VInt z) -> remove_offsets_with_ids [] names k = (k, Ok tt).
Proof.
  intros names k ms N M V Nz Iz. destruct (reorder_valid _ _ _ N M V) as (d & r & E1 & Ed & E2 & (P & Pl & _)). unfold remove_offsets_with_ids. rewrite E1. cbn [bind]. rewrite E2. cbn [bind].
  assert (Nr : NoDup r) by (eapply Permutation_NoDup; [symmetry; exact P | auto]).
  assert (E : adjust_offsets [] r names d = Ok (do_offsets k)).
  { unfold adjust_offsets. fold (survivors [] names). fold (survivors [] r). rewrite !survivors_nil.
    assert (X : mapM (fun kv : string * obj => let '(name, o) := kv in if smem name [] then Ok (name, o) else let! index_original := py_index names name in let! index_final := py_index r name in Ok (name, oset o "offset" (VInt (index_final - index_original)))) d = Ok d).
    { apply mapM_ok. subst d. destruct V as (_ & V & _).
      assert (Q : Forall2 (fun o m => offset_of o m /\ In m ms /\ In o (do_offsets k)) (do_offsets k) ms).
      { clear - M. revert M. generalize (do_offsets k). intros l M. induction M as [ | o m l ms Ho M IH]; constructor; [simpl; auto | ]. eapply Forall2_impl; [ | exact IH]. simpl. tauto. }
      match goal with |- Forall2 ?R _ _ => set (f := R) end. enough (W : forall l ms', Forall2 (fun o m => offset_of o m /\ In m ms /\ In o (do_offsets k)) l ms' ->
        Forall2 f (combine (map fst ms') l) (combine (map fst ms') l)) by (apply W; exact Q).
      clear - V Pl N Nr Iz. intros l ms' Q. induction Q as [ | o [s z] l l' (Ho & Hm & Hi) Q IH]; cbn [map fst combine]; constructor; auto. unfold f. cbn [smem existsb].
      destruct (V s z Hm) as (i & j & Hn & Hz & _). destruct (Pl s z i Hm Hn) as (j' & Ej & Hj). rewrite (index_at _ _ _ N Hn), (index_at _ _ _ Nr Hj). cbn [bind].
      do 2 f_equal. destruct Ho as [_ Ho]. cbn [snd] in Ho. destruct (Iz o Hi) as [z' Hz']. rewrite Hz' in Ho. destruct Ho as [Ho | [[Ho _] | [Ho _]]]; try discriminate. injection Ho as ->.
      replace (Z.of_nat j' - Z.of_nat i)%Z with z by lia. apply oset_same; [auto | discriminate]. }
    rewrite X. cbn [bind]. f_equal.
    assert (Y : map snd d = do_offsets k).
    { subst d. clear - M. induction M as [ | o m l ms Ho M IH]; cbn; auto. f_equal. auto. }
    rewrite Y. apply filter_all. intros o Ho. destruct (Forall2_fwd _ _ _ _ _ M o Ho) as ([s z] & Hm & Hs & Hz). cbn [fst snd] in *.
    destruct (Iz o Ho) as [z' Hz']. rewrite Hz' in *. destruct Hz as [Hz | [[Hz _] | [Hz _]]]; try discriminate. injection Hz as ->.
    unfold ostr. rewrite Hs. cbn [smem existsb negb andb]. change (negb (Z.eqb z 0) = true). apply negb_true_iff, Z.eqb_neq. eapply Nz; eauto. }
  rewrite (proj2 (has_slots (do_offsets k))) by (intros o Ho; destruct (Forall2_fwd _ _ _ _ _ M o Ho) as (m & _ & Hs & _); eexists; exact Hs). rewrite E. destruct k. reflexivity.
Qed.

Lemma drop_nil : forall A (d : dict A), drop_keys [] d = d.
Proof. intros A d. apply filter_all. auto. Qed.
Lemma dmap_drop_nil : forall A (d : dict (dict A)), dmap (drop_keys []) d = d.
Proof. intros A d. apply dmap_id_ext. intros k v _. apply drop_nil. Qed.
Lemma Forall2_eq : forall A (R : A -> A -> Prop) l l', Forall2 R l l' -> (forall x y, In x l -> R x y -> y = x) -> l' = l.
Proof. intros A R l l' H. induction H as [ | x y l l' Hx H IH]; intros K; auto. f_equal; [apply K; simpl; auto | apply IH; intros; apply K; simpl; auto]. Qed.
(** Removing nothing changes nothing *)
Lemma cleaned_nil : forall ver d d' names, dinv ver d -> cleaned [] [] names (d_bones d) (d_slots d) (d_ik d) d d' ->
  (forall a k, in_animations d a -> In k (an_drawOrder a) -> remove_offsets_with_ids [] names k = (k, Ok tt)) -> d' = d.
Proof.
  intros ver d d' names D C Dr.
  assert (E1 : d_slots d' = d_slots d).
  { rewrite (cl_slots _ _ _ _ _ _ _ _ C). apply map_same. intros s _. unfold unset_slot. destruct (ostr s "attachment"); reflexivity. }
  assert (E2 : d_skins d' = d_skins d).
  { rewrite (cl_skins _ _ _ _ _ _ _ _ C). apply map_same. intros s Hs. unfold clean_skin. rewrite drop_nil, dmap_drop_nil. pose proof (di_skins _ _ D) as Ok. rewrite Forall_forall in Ok.
    rewrite <- (sk_atts_some _ _ (Ok s Hs)). destruct s. reflexivity. }
  assert (E3 : d_animations d' = d_animations d).
  { apply (Forall2_eq _ _ _ _ (cl_anims _ _ _ _ _ _ _ _ C)). intros [i a] [i' a'] Hi [Ei Ca]. cbn [fst snd] in *. subst i'. f_equal. destruct Ca.
    rewrite drop_nil in ca_slots.
    assert (E4 : an_drawOrder a' = an_drawOrder a).
    { apply (Forall2_eq _ _ _ _ ca_draw). intros x y Hx E. rewrite (Dr a x) in E; [injection E as <-; auto | exists i; auto | auto]. }
    assert (E5 : an_deform a' = an_deform a).
    { rewrite ca_deform. apply map_same. intros [j z] _. unfold clean_deform. cbn [fst snd]. rewrite drop_nil, dmap_drop_nil. destruct (is_skin (d_skins d) j); auto. }
    destruct a, a'. cbn in *. congruence. }
  destruct C. destruct d, d'. cbn in *. congruence.
Qed.
Lemma nil_of : forall A (l : list A), (forall x, ~ In x l) -> l = [].
Proof. intros A [ | x l] H; auto. destruct (H x). left. auto. Qed.
Lemma perm_nil : forall enum i, order_ok enum -> enum i [] = [].
Proof. intros enum i O. apply Permutation_nil. symmetry. apply O. Qed.
Lemma shown_again : forall a a' s n, visible_in a s -> (forall t, In (slot_name s, t) (an_slots a) <-> In (slot_name s, t) (an_slots a')) -> visible_in a' s /\ (shown_in a s n -> shown_in a' s n).
Proof.
  intros a a' s n V E. assert (V' : visible_in a' s).
  { destruct V as [(t & Ht & Nh) | [Nt Vs]]; [left; exists t; split; auto; apply E; auto | right; split; auto]. intros [t Ht]. apply Nt. exists t. apply E. auto. }
  split; auto. intros [_ [H | (t & Ht & H)]]; (split; [auto | ]); [auto | right; exists t; split; auto; apply E; auto].
Qed.
Section Twice.
  Variables (e0 e e' : editor) (enum : order) (bs ss is : list obj) (inv atts orphans imgs rem : list string).
  Hypothesis Pl : plain_slots (e_data e0).
  Hypothesis Ps : plain_setup (e_data e0).
  Hypothesis S : st e bs ss is.
  Hypothesis I : since e0 e ss.
  Hypothesis Es : d_slots (e_data e) = ss.
  Hypothesis C : clean_ok enum e e' bs ss is inv atts [] orphans imgs rem.

  Lemma tw_rem : forall x, In x rem <-> In x inv.
  Proof. intros x. rewrite (plain_rem _ _ _ _ _ _ _ _ _ _ _ _ _ Pl I S C), app_nil_r. tauto. Qed.
  Lemma tw_slots : d_slots (e_data e') = filter (keep inv) (d_slots (e_data e)).
  Proof. rewrite (clean_slots_plain _ _ _ _ _ _ _ _ _ _ _ _ _ Ps I S C), app_nil_r, Es. auto. Qed.
  Lemma tw_slot : forall s, In s (d_slots (e_data e')) <-> In s (d_slots (e_data e)) /\ ~ In (slot_name s) inv.
  Proof. intros s. rewrite tw_slots, filter_In. unfold keep. rewrite negb_true_iff, smem_nin. tauto. Qed.
  Lemma tw_unused : (forall n, In n inv <-> exists s, In s (d_slots (e_data e)) /\ slot_name s = n /\ ~ used_slot (e_data e) s) /\
    (forall n, In n atts <-> ~ used_attachment (e_data e) n /\ exists sl o, skin_attachment (e_data e) sl n o /\ (o_cls o = CSkinMesh -> In sl inv)).
  Proof. destruct S as [D S']. apply unused_spec; [eapply sync_distinct_slots; eauto | eapply dinv_timelines; eauto | exact (co_unused _ _ _ _ _ _ _ _ _ _ _ _ C)]. Qed.
  Lemma tw_used : forall a s n, in_animations (e_data e) a -> In s (d_slots (e_data e)) -> visible_in a s ->
    In s (d_slots (e_data e')) /\ exists a', in_animations (e_data e') a' /\ visible_in a' s /\ (shown_in a s n -> shown_in a' s n).
  Proof.
    intros a s n Ha Hs V. assert (Ns : ~ In (slot_name s) inv).
    { intros K. apply (proj1 tw_unused) in K as (s' & Hs' & En & Nu). assert (s' = s).
      { eapply unique_name; eauto. destruct S as [_ S']. eapply sync_distinct_slots; eauto. }
      subst s'. apply Nu. exists a. auto. }
    split; [apply tw_slot; auto | ]. destruct (cleaned_anim_fwd _ _ _ _ _ _ _ _ _ (co_data _ _ _ _ _ _ _ _ _ _ _ _ C) Ha) as (a' & Ha' & Ca). exists a'. split; auto.
    apply (shown_again a); auto. intros t. rewrite (ca_slots _ _ _ _ _ _ Ca), in_drop_keys, tw_rem. tauto.
  Qed.
  Lemma tw_unused' : forall inv' atts', get_unused_slots_and_attachments (e_data e') = Ok (inv', atts') -> inv' = [] /\ atts' = [].
  Proof.
    intros inv' atts' A. pose proof (co_sync _ _ _ _ _ _ _ _ _ _ _ _ C) as S'. pose proof (co_dinv _ _ _ _ _ _ _ _ _ _ _ _ C) as D'.
    destruct (unused_spec _ _ _ (sync_distinct_slots _ _ _ _ _ _ S') (dinv_timelines _ _ D') A) as [U1 U2].
    assert (I0 : inv' = []).
    { apply nil_of. intros n Hn. apply U1 in Hn as (s & Hs & En & Nu). apply tw_slot in Hs as [Hs Ni]. apply Ni. apply (proj1 tw_unused). exists s. split; [auto | split; auto].
      intros (a & Ha & V). destruct (tw_used a s "" Ha Hs V) as (_ & a' & Ha' & V' & _). apply Nu. exists a'. auto. }
    split; auto. apply nil_of. intros k Hk. apply U2 in Hk as (Nu & sl & o & Ho & Hm). apply (cleaned_att _ _ _ _ _ _ _ _ (co_data _ _ _ _ _ _ _ _ _ _ _ _ C)) in Ho as (Ho & Hr & Hk).
    apply Hk. apply (proj2 tw_unused). split.
    - intros (a & s & Ha & Hs & Sh). destruct (tw_used a s k Ha Hs (proj1 Sh)) as (Hs' & a' & Ha' & _ & Sh'). apply Nu. exists a', s. auto.
    - exists sl, o. split; auto. intros K. apply Hm in K. rewrite I0 in K. destruct K.
  Qed.
  Lemma tw_edges : forall s, has (e_graph e') T_SLOT s -> exists k, edge (e_graph e') (slot_id s) (att_id k).
  Proof.
    intros s H. rewrite (co_graph _ _ _ _ _ _ _ _ _ _ _ _ C) in *. apply has_minus in H as [H Hn]. change (~ In (slot_id s) (gone4 inv atts [] orphans imgs)) in Hn. rewrite in_gone4_slot in Hn.
    pose proof (co_choice _ _ _ _ _ _ _ _ _ _ _ _ C) as Ch. destruct (ch_leafs _ _ _ _ _ _ Ch) as [_ Hl].
    destruct S as [_ S']. pose proof (sy_view _ _ _ _ _ _ S') as V.
    assert (Hd : (exists k, edge (e_graph e) (slot_id s) (att_id k) /\ ~ In k atts) \/ (forall k, edge (e_graph e) (slot_id s) (att_id k) -> In k atts)).
    { assert (Z : forall l, (forall j, In j l -> edge (e_graph e) (slot_id s) j) -> (exists k, edge (e_graph e) (slot_id s) (att_id k) /\ ~ In k atts) \/ forall k, In (att_id k) l -> In k atts).
      { induction l as [ | j l IH]; intros Hj; [right; intros k [] | ].
        destruct IH as [IH | IH]; [intros; apply Hj; right; auto | left; auto | ].
        destruct (gv_slot_down _ V s j) as [k ->]; [apply Hj; left; auto | ].
        destruct (in_dec string_dec k atts) as [Hk | Hk].
        - right. intros s' [E | H']; [apply att_inj in E; subst; auto | auto].
        - left. exists k. split; auto. apply Hj. left. auto. }
      destruct (Z (children_of (e_graph e) (slot_id s))) as [Y | Y]; [intros j Hj; apply edge_children; auto | auto | ].
      right. intros k Hk. apply Y, edge_children. auto. }
    destruct Hd as [(k & Hk & Nk) | Hd].
    - exists k. apply edge_minus. split; [auto | ]. rewrite in_gone4_slot, in_gone4_att. split; [tauto | ]. intros [K | K]; auto.
      apply (ch_orphans _ _ _ _ _ _ Ch) in K as (_ & _ & K). apply K in Hk. tauto.
    - exfalso. apply (Hl s). split; [exact H | split; auto].
  Qed.
  Lemma tw_draw : forall a k, in_animations (e_data e') a -> In k (an_drawOrder a) -> remove_offsets_with_ids [] (map slot_name (d_slots (e_data e'))) k = (k, Ok tt) /\
    forall o, In o (do_offsets k) -> exists s z, offset_of o (s, z) /\ In s (map slot_name (d_slots (e_data e'))).
  Proof.
    intros a k Ha Hk. destruct (cleaned_anim _ _ _ _ _ _ _ _ _ (co_data _ _ _ _ _ _ _ _ _ _ _ _ C) Ha) as (a0 & Ha0 & Ca).
    destruct (Forall2_in_r _ _ _ _ _ (ca_draw _ _ _ _ _ _ Ca) k Hk) as (k0 & Hk0 & R). pose proof (remove_offsets_ints _ _ _ _ R) as Iz.
    assert (N : NoDup (map slot_name (d_slots (e_data e)))) by (destruct S as [_ S']; eapply sync_distinct_slots; eauto).
    apply remove_offsets_in_range in R as (_ & ms & M & Va & Q); auto. rewrite (names_of_plain _ _ _ _ _ _ _ _ _ _ _ _ _ Pl I S C). split.
    - apply (draw_again _ _ ms); auto; [apply NoDup_filter; auto | ]. intros s z Hm. apply (Q s z). auto.
    - intros o Ho. destruct (Forall2_fwd _ _ _ _ _ M o Ho) as ([s z] & Hm & Hs). exists s, z. split; auto. apply Q in Hm. apply in_without. tauto.
  Qed.
  Lemma twice : forall enum', order_ok enum' -> analysable (e_data e') -> clean_animation enum' e' = (e', Ok ([], [])).
  Proof.
    intros enum' O A. pose proof (co_sync _ _ _ _ _ _ _ _ _ _ _ _ C) as S'. pose proof (co_dinv _ _ _ _ _ _ _ _ _ _ _ _ C) as D'.
    pose proof (co_ver _ _ _ _ _ _ _ _ _ _ _ _ C) as Ev. rewrite <- Ev in S', D'.
    destruct (clean_total enum' e' _ _ _ (conj D' S') O A) as (e2 & [rem2 atts2] & E).
    { intros inv2 atts2 leafs2 _. pose proof (co_boned _ _ _ _ _ _ _ _ _ _ _ _ C) as Fb. rewrite Forall_forall in *. intros s H. apply filter_In in H as [H _]. auto. }
    { intros a k o Ha Hk. apply (proj2 (tw_draw a k Ha Hk)). }
    rewrite E. destruct (clean_success _ _ _ _ _ _ _ _ D' S' O E) as (inv2 & leafs2 & orphans2 & imgs2 & C2).
    destruct (tw_unused' _ _ (co_unused _ _ _ _ _ _ _ _ _ _ _ _ C2)) as [-> ->]. pose proof (co_choice _ _ _ _ _ _ _ _ _ _ _ _ C2) as Ch.
    pose proof (sy_view _ _ _ _ _ _ S') as V.
    assert (L : leafs2 = []).
    { apply nil_of. intros s Hs. apply (ch_leafs _ _ _ _ _ _ Ch) in Hs as (H & _ & K). destruct (tw_edges s H) as [k Hk]. apply K in Hk. auto. }
    assert (Or : orphans2 = []).
    { apply nil_of. intros k Hk. apply (ch_orphans _ _ _ _ _ _ Ch) in Hk as (H & _ & K). destruct (gv_att _ V k H) as [s Hs]. apply K in Hs. auto. }
    assert (Im : imgs2 = []).
    { apply nil_of. intros i Hi. apply (ch_imgs _ _ _ _ _ _ Ch) in Hi as (H & K). destruct (gv_img _ V i H) as [k Hk]. apply K in Hk. rewrite Or in Hk. auto. }
    subst leafs2 orphans2 imgs2. rewrite (co_rem _ _ _ _ _ _ _ _ _ _ _ _ C2). change (removed_slots [] []) with (@nil string). rewrite (perm_nil _ _ O).
    f_equal.
    assert (R0 : rem2 = []) by (rewrite (co_rem _ _ _ _ _ _ _ _ _ _ _ _ C2); apply (perm_nil _ _ O)).
    assert (Ed : e_data e2 = e_data e').
    { pose proof (co_data _ _ _ _ _ _ _ _ _ _ _ _ C2) as Cd. rewrite R0 in Cd. pose proof (co_data _ _ _ _ _ _ _ _ _ _ _ _ C) as Cd1.
      apply (cleaned_nil (e_ver e') _ _ (map slot_name (d_slots (e_data e')))); auto.
      - assert (K1 : map (reload (e_ver e')) bs = d_bones (e_data e')) by (rewrite (cl_bones _ _ _ _ _ _ _ _ Cd1), Ev; auto).
        assert (K2 : map (reload (e_ver e')) is = d_ik (e_data e')) by (rewrite (cl_ik _ _ _ _ _ _ _ _ Cd1), Ev; auto).
        assert (K3 : filter (keep ([] ++ [])%list) (filter (keep (inv ++ [])%list) ss) = d_slots (e_data e')).
        { rewrite tw_slots, Es, (app_nil_r inv). apply filter_all. auto. }
        rewrite K1, K2, K3 in Cd. exact Cd.
      - intros a k Ha Hk. apply (proj1 (tw_draw a k Ha Hk)). }
    pose proof (co_skeleton _ _ _ _ _ _ _ _ _ _ _ _ C2) as E1. pose proof (co_ver _ _ _ _ _ _ _ _ _ _ _ _ C2) as E2.
    pose proof (co_images _ _ _ _ _ _ _ _ _ _ _ _ C2) as E3. pose proof (co_graph _ _ _ _ _ _ _ _ _ _ _ _ C2) as E4.
    change (gone4 [] [] [] [] []) with (@nil string) in E4. rewrite minus_nil in E4.
    assert (E5 : e_images e2 = e_images e') by (rewrite E3; apply filter_all; auto).
    destruct e2 as [[sk2 v2 d2] im2 g2], e' as [[sk1 v1 d1] im1 g1]. unfold e_data, e_ver in *. cbn in *. congruence.
  Qed.
End Twice.
Theorem clean_again : forall e0 ops e enum enum' e' rem atts, plain_slots (e_data e0) -> plain_setup (e_data e0) -> history e0 ops e -> order_ok enum -> order_ok enum' ->
  clean_animation enum e = (e', Ok (rem, atts)) ->
  (forall s, In s (d_slots (e_data e)) -> In (slot_name s) rem -> ~ used_slot (e_data e) s) ->
  (analysable (e_data e') -> clean_animation enum' e' = (e', Ok ([], []))) /\
  (~ analysable (e_data e') -> exists x, clean_animation enum' e' = (e', Err x)).
Proof.
  intros e0 ops e enum enum' e' rem atts Pl Ps H O O' E Hu. destruct (last_built_ex _ _ _ H) as [eb B]. destruct (history_plain _ _ _ _ Ps B) as (ss & [D S] & I & Es).
  destruct (clean_success _ _ _ _ _ _ _ _ D S O E) as (inv & leafs & orphans & imgs & C).
  assert (L : leafs = []).
  { apply nil_of. intros s Hs. pose proof (leaf_name _ _ _ _ _ _ _ _ _ _ _ _ s (conj D S) C Hs) as Hn. apply in_map_iff in Hn as (o & <- & Ho).
    pose proof (proj1 (ch_leafs _ _ _ _ _ _ (co_choice _ _ _ _ _ _ _ _ _ _ _ _ C)) ) as _. pose proof Hs as Hs'.
    apply (ch_leafs _ _ _ _ _ _ (co_choice _ _ _ _ _ _ _ _ _ _ _ _ C)) in Hs' as (_ & Ni & _). apply Ni.
    apply (unused_spec _ _ _ (sync_distinct_slots _ _ _ _ _ _ S) (dinv_timelines _ _ D) (co_unused _ _ _ _ _ _ _ _ _ _ _ _ C)). exists o. split; [auto | split; auto].
    apply Hu; auto. apply (plain_rem _ _ _ _ _ _ _ _ _ _ _ _ _ Pl I (conj D S) C). apply in_app_iff. auto. }
  subst leafs. split; intros A.
  - eapply twice; eauto. split; auto.
  - assert (H' : history e0 (EoClean enum :: ops) e') by (econstructor; eauto; cbn [estep]; rewrite E; auto). eapply clean_refuses; eauto.
Qed.
