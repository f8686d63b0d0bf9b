(** Proofs about images_references. *)
From Verif Require Import PyBase PyFacts Json Version Graph SpecGraph GraphFacts GraphApi GraphRemove IdFacts Classes ClassFacts DocFacts ReloadFacts SpineGraph SpecSpine
  SpineFacts BuildFacts BuildTotal SpineRemove DrawOrder SpecDraw DrawFacts AnimData AnimFacts Editor SpecAnim SkinFacts SpecEditor EditorGraph EditorData EditorBuild EditorClean EditorOut EditorHist EditorFacts EditorKeep.
From Coq Require Import Sorting.Sorted Permutation.
Open Scope string_scope.

(** ** The images of a loaded document *)
Lemma relative_path : forall k o, match py_or (image_name o) (Some k) with Some s => s | None => "" end = att_image k o.
Proof.
  intros k o. unfold image_name, py_or, truthy_str, att_image. destruct (ostr o "path") as [[ | c p] | ]; destruct (ostr o "name") as [[ | c' n] | ]; reflexivity.
Qed.
Lemma foldM_keys : forall A (f : dict imgref -> A -> res (dict imgref)) (Q : A -> string -> Prop) l acc r,
  (forall acc x r, In x l -> f acc x = Ok r -> forall i, In i (dkeys r) <-> In i (dkeys acc) \/ Q x i) ->
  foldM f acc l = Ok r -> forall i, In i (dkeys r) <-> In i (dkeys acc) \/ exists x, In x l /\ Q x i.
Proof.
  intros A f Q. induction l as [ | x l IH]; intros acc r F E i; cbn [foldM] in E.
  - injection E as <-. split; auto. intros [H | (x & [] & _)]; auto.
  - apply bind_ok in E as (a1 & E1 & E2). rewrite (IH a1 r); [ | intros; eapply F; eauto; right; auto | auto].
    rewrite (F acc x a1); [ | left; auto | auto]. split.
    + intros [[H | H] | (y & Hy & H)]; [auto | right; exists x; simpl; auto | right; exists y; simpl; auto].
    + intros [H | (y & [<- | Hy] & H)]; [auto | auto | right; exists y; auto].
Qed.
Lemma in_dkeys_dset : forall A k (v : A) d i, In i (dkeys (dset k v d)) <-> In i (dkeys d) \/ i = k.
Proof.
  intros A k v d i. induction d as [ | [k' v'] d IH]; cbn [dset dkeys map fst].
  - cbn. intuition.
  - destruct (String.eqb k k') eqn:E.
    + apply String.eqb_eq in E. subst. cbn. intuition.
    + cbn. fold (dkeys (dset k v d)). fold (dkeys d). rewrite IH. intuition.
Qed.
Theorem images_loaded : forall x l, get_images_references x = Ok l -> forall i, In i (dkeys l) <-> image_in_use (doc_data x) i.
Proof.
  intros x l E i. unfold get_images_references in E.
  set (folder := match dget "images" (doc_skeleton x) with Some v => v | None => VStr "./images/" end) in E.
  set (Q := fun s i => exists sl m k o, In (sl, m) (sk_atts s) /\ In (k, o) m /\ o_cls o <> CSkinPath /\ i = att_image k o).
  rewrite (fun F => foldM_keys _ _ Q _ _ _ F E); clear E l.
  2: { intros acc s r _ E j. destruct (ver_ge (doc_version x) SPINE_3_8); [ | discriminate].
       rewrite (fun F => foldM_keys _ _ (fun kv i => exists k o, In (k, o) (snd kv) /\ o_cls o <> CSkinPath /\ i = att_image k o) _ _ _ F E).
       - unfold Q. split; (intros [H | H]; [auto | right]).
         + destruct H as ([sl m] & Hm & k & o & H). exists sl, m, k, o. tauto.
         + destruct H as (sl & m & k & o & Hm & H). exists (sl, m). split; auto. exists k, o. auto.
       - clear. intros acc [sl m] r _ E j. unfold add_slot_images in E. cbn [fst snd] in E. apply bind_ok in E as (sc & _ & E).
         rewrite (fun F => foldM_keys _ _ (fun kv i => o_cls (snd kv) <> CSkinPath /\ i = att_image (fst kv) (snd kv)) _ _ _ F E).
         + cbn [snd]. split; (intros [H | H]; [auto | right]).
           * destruct H as ([k o] & Ho & H). exists k, o. tauto.
           * destruct H as (k & o & Ho & H). exists (k, o). auto.
         + clear. intros acc [k o] r _ E j. unfold add_image in E. cbn [fst snd]. destruct (o_cls o) eqn:Ec;
           try (injection E as <-; split; [auto | intros [H | [H _]]; [auto | congruence]]);
           (destruct (has_attr "path" o && has_attr "name" o)%bool; cbn [negb] in E; [ | discriminate]); rewrite relative_path in E;
           (destruct folder; try discriminate); injection E as <-; rewrite in_dkeys_dset; (split; [intros [H | H]; [auto | right; split; [discriminate | auto]] | intros [H | [_ H]]; auto]). }
  unfold Q, image_in_use, skin_attachment. split.
  - intros [[] | (s & Hs & sl & m & k & o & Hm & Ho & H)]. exists sl, k, o. split; [exists s, m; auto | auto].
  - intros (sl & k & o & (s & m & Hs & Hm & Ho) & H). right. exists s. split; auto. exists sl, m, k, o. auto.
Qed.

(** ** images_references covers the images in use *)
Lemma in_drop_images : forall l (im : dict imgref) i, In i (dkeys (drop_images l im)) <-> In i (dkeys im) /\ ~ In i l.
Proof.
  intros l im i. unfold drop_images, dkeys. rewrite !in_map_iff. split.
  - intros ([k v] & E & H). cbn in E. subst k. apply filter_In in H as [H1 H2]. cbn [fst] in H2. rewrite negb_true_iff in H2. split; [exists (i, v); auto | ].
    intros Hi. assert (T : omem (Some i) (map Some l) = true) by (apply omem_in, in_map; auto). congruence.
  - intros (([k v] & E & H) & Hn). cbn in E. subst k. exists (i, v). split; auto. apply filter_In. split; auto. cbn [fst]. rewrite negb_true_iff.
    destruct (omem (Some i) (map Some l)) eqn:T; auto. apply omem_in, in_map_iff in T as (y & Ey & Hy). injection Ey as ->. tauto.
Qed.
Lemma in_without_images : forall l e i, In i (dkeys (e_images (without_images l e))) <-> In i (dkeys (e_images e)) /\ ~ In (Some i) l.
Proof.
  intros l e i. unfold without_images. cbn [e_images]. unfold dkeys. rewrite !in_map_iff. split.
  - intros ([k v] & E & H). cbn in E. subst k. apply filter_In in H as [H1 H2]. cbn [fst] in H2. rewrite negb_true_iff in H2. split; [exists (i, v); auto | ].
    intros Hi. apply omem_in in Hi. congruence.
  - intros (([k v] & E & H) & Hn). cbn in E. subst k. exists (i, v). split; auto. apply filter_In. split; auto. cbn [fst]. rewrite negb_true_iff.
    destruct (omem (Some i) l) eqn:T; auto. apply omem_in in T. tauto.
Qed.
Lemma desc_use : forall d0 d i, desc d0 d -> image_in_use d i -> image_in_use d0 i.
Proof.
  intros d0 d i H (sl & k & o & Ho & Hc & ->). destruct (H _ _ _ Ho) as (o0 & Ho0 & E1 & E2 & E3 & _). exists sl, k, o0. split; [auto | ].
  split; [destruct E3 as [<- | E3]; [auto | congruence] | apply att_image_same; auto].
Qed.
Lemma image_node : forall e bs ss is sl k o, st e bs ss is -> skin_attachment (e_data e) sl k o -> In (img_id (att_image k o)) (ids (e_graph e)).
Proof.
  intros e bs ss is sl k o [_ S] H. apply (sy_atts _ _ _ _ _ _ S) in H as [_ H]. apply edge_has in H; [tauto | ]. apply gv_good, (sy_view _ _ _ _ _ _ S).
Qed.
Lemma clean_image_kept : forall enum e e' bs ss is inv atts leafs orphans imgs rem i,
  clean_ok enum e e' bs ss is inv atts leafs orphans imgs rem -> image_in_use (e_data e') i -> ~ In i imgs.
Proof.
  intros enum e e' bs ss is inv atts leafs orphans imgs rem i C (sl & k & o & H & _ & ->) Hi.
  apply (sy_atts _ _ _ _ _ _ (co_sync _ _ _ _ _ _ _ _ _ _ _ _ C)) in H as [_ H]. rewrite (co_graph _ _ _ _ _ _ _ _ _ _ _ _ C) in H. apply edge_minus in H as (_ & _ & H).
  apply H. apply in_gone4_img. auto.
Qed.
Lemma images_of_imgs : forall enum e0 e e' bs ss is inv atts leafs orphans imgs rem, since e0 e ss -> st e bs ss is ->
  clean_ok enum e e' bs ss is inv atts leafs orphans imgs rem -> forall i, In i imgs -> exists sl k o, skin_attachment (e_data e0) sl k o /\ i = att_image k o.
Proof.
  intros enum e0 e e' bs ss is inv atts leafs orphans imgs rem I S C i Hi. apply (si_imgs _ _ _ I).
  apply (ch_imgs _ _ _ _ _ _ (co_choice _ _ _ _ _ _ _ _ _ _ _ _ C)) in Hi as [Hi _]. auto.
Qed.
Lemma plain_imgs : forall enum e0 e e' bs ss is inv atts leafs orphans imgs rem, plain_images (e_data e0) -> since e0 e ss -> st e bs ss is ->
  clean_ok enum e e' bs ss is inv atts leafs orphans imgs rem -> map img_base imgs = imgs.
Proof.
  intros enum e0 e e' bs ss is inv atts leafs orphans imgs rem Pl I S C. apply map_same. intros i Hi.
  destruct (images_of_imgs _ _ _ _ _ _ _ _ _ _ _ _ _ I S C i Hi) as (sl & k & o & Ho & ->). apply plain_img_base. eapply Pl; eauto.
Qed.
Lemma in_images_to_drop : forall g l i, In (Some i) (images_to_drop g l) <-> In (Some i) l /\ ~ In (img_id i) (ids g).
Proof.
  intros g l i. unfold images_to_drop. rewrite filter_In, negb_true_iff. cbn [img_id]. unfold ids, img_id.
  assert (Q : dmem (graph_id T_IMAGE i) (g_nodes g) = false <-> ~ In (graph_id T_IMAGE i) (dkeys (g_nodes g))).
  { unfold dmem. destruct (dget (graph_id T_IMAGE i) (g_nodes g)) eqn:G.
    - apply dget_in_keys in G. split; [discriminate | tauto].
    - apply dget_none in G. tauto. }
  rewrite Q. tauto.
Qed.
Theorem images_covered : forall e0 ops e, plain_images (e_data e0) -> history e0 ops e ->
  forall i, image_in_use (e_data e) i -> In i (dkeys (e_images e)).
Proof.
  intros e0 ops e Pl H. destruct (last_built_ex _ _ _ H) as [eb B].
  apply (history_all e0 (fun e _ _ _ => forall i, image_in_use (e_data e) i -> In i (dkeys (e_images e)))) in B as (ss & S & I & K); auto.
  - intros (j & _ & Hj) i Hi. apply mk_editor_inv in Hj as (_ & Hj & _). apply (images_loaded _ _ Hj). auto.
  - clear - Pl. intros e bs ss is o e1 bs1 ss1 is1 e2 ss2 S I K Q S1 I1 M i Hi.
    assert (K1 : forall i, image_in_use (e_data e1) i -> In i (dkeys (e_images e1))).
    { destruct Q as [ | l | sx sy l R | l d1 removed g R B]; auto. intros j Hj. apply K. destruct S as [D S]. apply (removal_facts _ _ _ _ _ R) in D as (_ & D & _). eapply desc_use; eauto. }
    assert (Hi2 : image_in_use (e_data e2) i) by (destruct o; exact Hi).
    assert (K2 : In i (dkeys (e_images e2))).
    { destruct M as [ | enum e2 inv atts leafs orphans imgs rem Oo C]; auto. rewrite (co_images _ _ _ _ _ _ _ _ _ _ _ _ C).
      rewrite (plain_imgs _ _ _ _ _ _ _ _ _ _ _ _ _ Pl I1 S1 C). apply in_drop_images. split.
      - apply K1. destruct Hi2 as (sl & k & x & Hx & Hc & ->). exists sl, k, x. apply (cleaned_att _ _ _ _ _ _ _ _ (co_data _ _ _ _ _ _ _ _ _ _ _ _ C)) in Hx. tauto.
      - eapply clean_image_kept; eauto. }
    destruct Q as [ | l | sx sy l R | l d1 removed g R B]; auto. cbn [post]. apply in_without_images. split; auto. rewrite in_images_to_drop. intros [_ Hn]. apply Hn.
    assert (Hi1 : image_in_use d1 i).
    { destruct M as [ | enum e2 inv atts leafs orphans imgs rem Oo C]; auto. destruct Hi2 as (sl & k & x & Hx & Hc & ->). exists sl, k, x.
      apply (cleaned_att _ _ _ _ _ _ _ _ (co_data _ _ _ _ _ _ _ _ _ _ _ _ C)) in Hx. tauto. }
    destruct Hi1 as (sl & k & x & Hx & _ & ->). exact (image_node _ _ _ _ sl k x S1 Hx).
Qed.

(** ** ... and no others, in a tidy document *)
Record exact (d0 : anim_data) (g : sgraph) (d : anim_data) : Prop := {
  ex_slot : forall s k, edge g (slot_id s) (att_id k) -> exists o, skin_attachment d s k o;
  ex_att : forall k i, edge g (att_id k) (img_id i) -> forall sl o, skin_attachment d sl k o -> i = att_image k o }.
Lemma built_exact : forall d0 x g, dinv (doc_version x) (doc_data x) -> tidy d0 -> desc d0 (doc_data x) ->
  create_from_json_data (document_json x) = Ok g -> exact d0 g (doc_data x).
Proof.
  intros d0 x g D T H B. rewrite document_json_dict in B. apply build_ok in B. constructor.
  - intros s k E. apply (edge_slot x g D B) in E as (k' & o & Ho & _ & E). apply att_inj in E. subst k'. exists o. auto.
  - intros k i E sl o Ho. apply (edge_att x g D B) in E as (s & o' & Ho' & _ & E). apply img_inj in E. subst i.
    destruct (H _ _ _ Ho) as (a & Ha & E1 & E2 & _). destruct (H _ _ _ Ho') as (b & Hb & E3 & E4 & _).
    rewrite (att_image_same k o a E1 E2), (att_image_same k o' b E3 E4). eapply (td_one _ T); eauto.
Qed.
Lemma clean_exact : forall enum e0 e e' bs ss is inv atts leafs orphans imgs rem, tidy (e_data e0) -> since e0 e ss -> st e bs ss is ->
  clean_ok enum e e' bs ss is inv atts leafs orphans imgs rem -> exact (e_data e0) (e_graph e) (e_data e) -> exact (e_data e0) (e_graph e') (e_data e').
Proof.
  intros enum e0 e e' bs ss is inv atts leafs orphans imgs rem T I S C X. rewrite (co_graph _ _ _ _ _ _ _ _ _ _ _ _ C).
  pose proof (cleaned_att _ _ _ _ _ _ _ _ (co_data _ _ _ _ _ _ _ _ _ _ _ _ C)) as A. constructor.
  - intros s k E. apply edge_minus in E as (E & N1 & N2). destruct (ex_slot _ _ _ X s k E) as [o Ho]. exists o. apply A. split; auto.
    rewrite in_gone4_slot in N1. rewrite in_gone4_att in N2. split; [ | tauto].
    rewrite (plain_rem _ _ _ _ _ _ _ _ _ _ _ _ _ (td_slots _ T) I S C), in_app_iff. tauto.
  - intros k i E sl o Ho. apply edge_minus in E as (E & _). apply A in Ho as (Ho & _). eapply (ex_att _ _ _ X); eauto.
Qed.
Lemma clean_use : forall enum e0 e e' bs ss is inv atts leafs orphans imgs rem i, tidy (e_data e0) -> since e0 e ss -> st e bs ss is ->
  clean_ok enum e e' bs ss is inv atts leafs orphans imgs rem -> exact (e_data e0) (e_graph e) (e_data e) ->
  image_in_use (e_data e) i -> ~ In i imgs -> image_in_use (e_data e') i.
Proof.
  intros enum e0 e e' bs ss is inv atts leafs orphans imgs rem i T I S C X (sl & k & o & Ho & Hc & Ei) Hi.
  pose proof (clean_exact _ _ _ _ _ _ _ _ _ _ _ _ _ T I S C X) as X'. pose proof (co_sync _ _ _ _ _ _ _ _ _ _ _ _ C) as S'.
  pose proof (sy_view _ _ _ _ _ _ S') as V. pose proof (gv_good _ V) as G.
  assert (H : has (e_graph e') T_IMAGE i).
  { rewrite (co_graph _ _ _ _ _ _ _ _ _ _ _ _ C). apply has_minus. split; [destruct S as [_ S]; rewrite Ei; apply (sync_att _ _ _ _ _ _ S sl k o Ho) | ].
    change (~ In (img_id i) (gone4 inv atts leafs orphans imgs)). rewrite in_gone4_img. auto. }
  destruct (gv_img _ V i H) as [k' E1]. destruct (edge_has _ _ _ G E1) as [Hk _]. destruct (gv_att _ V k' Hk) as [s E2].
  destruct (ex_slot _ _ _ X' s k' E2) as [o' Ho']. exists s, k', o'. split; [auto | ]. split; [ | eapply (ex_att _ _ _ X'); eauto].
  pose proof (since_clean _ _ _ _ _ _ _ _ _ _ _ _ _ I C) as I'. destruct (si_desc _ _ _ I' _ _ _ Ho') as (_ & _ & _ & _ & _ & sl1 & k1 & o1 & H1 & <-). eapply (td_path _ T); eauto.
Qed.

(** Erasing skins *)
Lemma names_att_image : forall o i k, names_image o (Some i) -> i <> "" -> att_image k o = i.
Proof.
  intros o i k [(p & E & N & H) | ([E | E] & H)] Hi; unfold att_image; rewrite E.
  - injection H as ->. destruct p; auto. congruence.
  - rewrite <- H. destruct i; auto. congruence.
  - rewrite <- H. destruct i; auto. congruence.
Qed.
Lemma names_same : forall o o' x, oget o "path" = oget o' "path" -> oget o "name" = oget o' "name" -> names_image o x -> names_image o' x.
Proof. intros o o' x E1 E2. unfold names_image, ostr. rewrite E1, E2. auto. Qed.
Record tidy_skins (d : anim_data) : Prop := {
  ts_named : forall sl k o, skin_attachment d sl k o -> exists i, names_image o (Some i) /\ i <> "";
  ts_path : forall sl k o, skin_attachment d sl k o -> o_cls o <> CSkinPath;
  ts_skins : NoDup (map sk_name (d_skins d)) }.
Lemma tidy_desc : forall d0 d, desc d0 d -> tidy d0 -> NoDup (map sk_name (d_skins d)) -> tidy_skins d.
Proof.
  intros d0 d H T N. constructor; auto.
  - intros sl k o Ho. destruct (H _ _ _ Ho) as (o0 & Ho0 & E1 & E2 & _). destruct (td_named _ T _ _ _ Ho0) as (i & Hi & Ni). exists i. split; auto. apply (names_same o0 o); auto.
  - intros sl k o Ho. destruct (H _ _ _ Ho) as (_ & _ & _ & _ & _ & sl1 & k1 & o1 & H1 & <-). eapply (td_path _ T); eauto.
Qed.
Lemma erased_cons : forall r rs x, In x (erased_images (r :: rs)) <->
  In x (fst r) \/ In x (flat_map (fun kv => map (fun p => Some (snd p)) (snd kv)) (snd r)) \/ In x (erased_images rs).
Proof. intros r rs x. unfold erased_images. cbn [flat_map]. rewrite !in_app_iff. tauto. Qed.
Lemma remove_skin_use : forall ver n d d' r i, remove_skin n d = (d', Ok r) -> dinv ver d -> tidy_skins d -> image_in_use d i ->
  image_in_use d' i \/ In (Some i) (fst r) \/ In (Some i) (flat_map (fun kv => map (fun p => Some (snd p)) (snd kv)) (snd r)).
Proof.
  intros ver n d d' r i R D T (sl & k & o & (s & m & Hs & Hm & Ho) & Hc & ->). destruct (remove_skin_rest _ _ _ _ R) as (source & F & -> & _ & U & _).
  assert (Ho' : skin_attachment d sl k o) by (exists s, m; auto).
  destruct (opt_eqb (sk_name s) (Some n)) eqn:En.
  - right. apply opt_eqb_spec in En. assert (s = source).
    { destruct F as (l1 & l2 & El & Es & _). pose proof (ts_skins _ T) as N. assert (Hso : In source (d_skins d)) by (rewrite El; apply in_elt).
      clear - N Hs Hso En Es. induction (d_skins d) as [ | x l IH]; [destruct Hs | ]. cbn in N. apply NoDup_cons_iff in N as [N1 N2].
      destruct Hs as [-> | Hs]; destruct Hso as [-> | Hso]; auto; destruct N1; apply in_map_iff; eexists; (split; [ | eassumption]); congruence. }
    subst source. destruct (ts_named _ T _ _ _ Ho') as (i & Hi & Ni). rewrite (names_att_image _ _ _ Hi Ni). cbn [fst snd].
    pose proof (di_skins _ _ D) as Ok. rewrite Forall_forall in Ok. specialize (Ok s Hs).
    pose proof (ao_cls _ _ (so_atts _ _ Ok _ _ _ _ Hm Ho)) as Cl. destruct Cl as [Cl | [Cl | [Cl | [Cl | []]]]].
    + right. destruct (proj2 (removed_attachments_spec s (so_keys _ _ Ok) sl k i)) as (m' & G1 & G2).
      { exists o. split; [exists m; auto | auto]. }
      apply dget_some_in in G1, G2. apply in_flat_map. exists (sl, m'). split; auto. apply in_map_iff. exists (k, i). auto.
    + left. apply removed_images_spec. exists sl, k, o. split; [exists m; auto | ]. left. auto.
    + left. apply removed_images_spec. exists sl, k, o. split; [exists m; auto | ]. left. auto.
    + destruct Hc. auto.
  - left. apply opt_eqb_false in En. destruct (unlinked_forth _ _ _ _ U s sl m k o) as (o' & Ho2 & Un); auto.
    { apply others_in. auto. }
    apply unlinked_image in Un as [E1 E2]. exists sl, k, o'. split; auto. split; [ | apply att_image_same; auto].
    destruct (remove_skin_desc _ _ _ _ R _ _ _ Ho2) as (_ & _ & _ & _ & _ & sl1 & k1 & o1 & H1 & <-). eapply (ts_path _ T); eauto.
Qed.
Lemma remove_skin_tidy : forall n d d' r, remove_skin n d = (d', Ok r) -> tidy_skins d -> tidy_skins d'.
Proof.
  intros n d d' r R T. destruct (remove_skin_rest _ _ _ _ R) as (source & F & -> & _ & U & _). pose proof (remove_skin_desc _ _ _ _ R) as H. constructor.
  - intros sl k o Ho. destruct (H _ _ _ Ho) as (o0 & Ho0 & E1 & E2 & _). destruct (ts_named _ T _ _ _ Ho0) as (i & Hi & Ni). exists i. split; auto. apply (names_same o0 o); auto.
  - intros sl k o Ho. destruct (H _ _ _ Ho) as (_ & _ & _ & _ & _ & sl1 & k1 & o1 & H1 & <-). eapply (ts_path _ T); eauto.
  - assert (E : map sk_name (d_skins d') = map sk_name (others n (d_skins d))).
    { clear - U. induction U as [ | x y l l' [E _] U IH]; cbn; auto. f_equal; auto. }
    rewrite E. pose proof (ts_skins _ T) as N. clear - N. unfold others. induction (d_skins d) as [ | s l IH]; cbn; auto. cbn in N. apply NoDup_cons_iff in N as [N1 N2].
    destruct (negb (opt_eqb (sk_name s) (Some n))); auto. cbn. constructor; auto. intros K. apply N1. apply in_map_iff in K as (y & Ey & Hy). apply filter_In in Hy. apply in_map_iff. exists y. tauto.
Qed.
Lemma removal_use : forall ver l d d' rs, removal l d d' rs -> dinv ver d -> tidy_skins d ->
  tidy_skins d' /\ forall i, image_in_use d i -> image_in_use d' i \/ In (Some i) (erased_images rs).
Proof.
  intros ver l d d' rs R. induction R as [d | n l d d1 d2 r rs R1 R2 IH]; intros D T.
  - auto.
  - pose proof (remove_skin_tidy _ _ _ _ R1 T) as T1. pose proof (dinv_remove_skin _ _ _ _ _ D R1) as D1. destruct (IH D1 T1) as [T2 U2]. split; auto.
    intros i Hi. rewrite erased_cons. destruct (remove_skin_use _ _ _ _ _ _ R1 D T Hi) as [H | [H | H]]; auto. destruct (U2 i H); auto.
Qed.
Lemma graph_use : forall e0 e bs ss is g i, tidy (e_data e0) -> since e0 e ss -> st e bs ss is -> e_graph e = g -> exact (e_data e0) g (e_data e) ->
  has g T_IMAGE i -> image_in_use (e_data e) i.
Proof.
  intros e0 e bs ss is g i T I [D S] <- X H. pose proof (sy_view _ _ _ _ _ _ S) as V.
  destruct (gv_img _ V i H) as [k' E1]. destruct (edge_has _ _ _ (gv_good _ V) E1) as [Hk _]. destruct (gv_att _ V k' Hk) as [s E2].
  destruct (ex_slot _ _ _ X s k' E2) as [o' Ho']. exists s, k', o'. split; [auto | ]. split; [ | eapply (ex_att _ _ _ X); eauto].
  destruct (si_desc _ _ _ I _ _ _ Ho') as (_ & _ & _ & _ & _ & sl1 & k1 & o1 & H1 & <-). eapply (td_path _ T); eauto.
Qed.
Lemma in_ids_dec : forall i (g : sgraph), In i (ids g) \/ ~ In i (ids g).
Proof. intros i g. destruct (in_dec string_dec i (ids g)); auto. Qed.
Theorem images_exact : forall e0 ops e, tidy (e_data e0) -> history e0 ops e ->
  forall i, In i (dkeys (e_images e)) <-> image_in_use (e_data e) i.
Proof.
  intros e0 ops e T H i. split; [ | eapply images_covered; eauto; apply (td_images _ T)]. revert i. destruct (last_built_ex _ _ _ H) as [eb B].
  apply (history_all e0 (fun e _ _ _ => (forall i, In i (dkeys (e_images e)) -> image_in_use (e_data e) i) /\ exact (e_data e0) (e_graph e) (e_data e) /\
           NoDup (map sk_name (d_skins (e_data e))))) in B as (ss & S & I & K & _); auto.
  - intros L. destruct (loaded_sync _ L) as (D & _ & _). destruct L as (j & _ & Hj). apply mk_editor_inv in Hj as (_ & Hj & B0). split; [ | split].
    + intros i Hi. apply (images_loaded _ _ Hj). auto.
    + apply (built_exact _ (e_doc e0)); auto. apply desc_refl.
    + apply (td_skins _ T).
  - clear - T. intros e bs ss is o e1 bs1 ss1 is1 e2 ss2 S I (K & X & N) Q S1 I1 M.
    assert (R1 : exact (e_data e0) (e_graph e1) (e_data e1) /\ NoDup (map sk_name (d_skins (e_data e1))) /\
                 forall i, In i (dkeys (e_images e1)) -> (forall l, o = Some l -> ~ In (Some i) l) -> image_in_use (e_data e1) i).
    { destruct Q as [ | l | sx sy l R | l d1 removed g R B].
      - split; [auto | split; [auto | ]]. intros i Hi _. apply K. exact Hi.
      - split; [destruct X; constructor; auto | split; [auto | ]]. intros i Hi _. apply K. exact Hi.
      - split; [destruct X; constructor; auto | split; [auto | ]]. intros i Hi _. apply K. exact Hi.
      - destruct S as [D S]. pose proof (tidy_desc _ _ (si_desc _ _ _ I) T N) as Ts. destruct (removal_use _ _ _ _ _ R D Ts) as [T1 U1].
        assert (D1 : dinv (e_ver e) d1) by (apply (removal_facts _ _ _ _ _ R) in D; tauto).
        assert (X1 : exact (e_data e0) g d1) by (apply (built_exact _ (with_data e d1)); auto; apply (si_desc _ _ _ I1)).
        split; [exact X1 | ]. split; [apply (ts_skins _ T1) | ]. intros i Hi Hn. destruct (U1 i (K i Hi)) as [ | He]; auto.
        specialize (Hn _ eq_refl). rewrite in_images_to_drop in Hn. destruct (in_ids_dec (img_id i) g) as [Hg | Hg]; [ | tauto].
        exact (graph_use e0 _ _ _ _ g i T I1 S1 eq_refl X1 Hg). }
    destruct R1 as (X1 & N1 & K1).
    assert (R2 : exact (e_data e0) (e_graph e2) (e_data e2) /\ NoDup (map sk_name (d_skins (e_data e2))) /\
                 forall i, In i (dkeys (e_images e2)) -> (forall l, o = Some l -> ~ In (Some i) l) -> image_in_use (e_data e2) i).
    { destruct M as [ | enum e2 inv atts leafs orphans imgs rem Oo C]; [auto | ]. split; [eapply clean_exact; eauto | split].
      - rewrite (cl_skins _ _ _ _ _ _ _ _ (co_data _ _ _ _ _ _ _ _ _ _ _ _ C)), map_map. exact N1.
      - intros i Hi Hn. rewrite (co_images _ _ _ _ _ _ _ _ _ _ _ _ C), (plain_imgs _ _ _ _ _ _ _ _ _ _ _ _ _ (td_images _ T) I1 S1 C) in Hi. apply in_drop_images in Hi as [Hi Hx].
        eapply clean_use; eauto. }
    destruct R2 as (X2 & N2 & K2). destruct o as [l | ]; cbn [post].
    + split; [ | split; auto]. intros i Hi. apply in_without_images in Hi as [Hi Hx]. apply K2; auto. intros l' El. injection El as <-. auto.
    + split; [ | split; auto]. intros i Hi. apply K2; auto. discriminate.
Qed.
