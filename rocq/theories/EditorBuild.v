(** The graph built from a document, in terms of the document's data. *)
From Verif Require Import PyBase PyFacts Json Version Graph SpecGraph Classes ClassFacts DocFacts ReloadFacts SpineGraph SpecSpine SpineFacts BuildFacts BuildTotal
  DrawOrder AnimData Editor SpecAnim SkinFacts SpecEditor EditorGraph EditorData.
From Coq Require Import Sorting.Sorted.
Open Scope string_scope.

(** ** Fields of exported elements *)
Lemma field_json : forall ver o k, NoDup (dkeys (o_attrs o)) -> dget k (default_values (o_cls o) ver) = None ->
  field (obj_json ver o) k = oget o k.
Proof.
  intros ver o k N H. unfold field, obj_json. rewrite dget_export by auto. unfold oget.
  destruct (dget k (o_attrs o)) as [v | ]; auto. destruct (exported (default_values (o_cls o) ver) k v) eqn:E; auto.
  unfold exported in E. unfold get_or_none in E. rewrite H in E. destruct v; auto; try (simpl in E; discriminate);
    simpl in E; destruct l; discriminate.
Qed.
Lemma wf_keys : forall c o, wf_obj c o -> NoDup (dkeys (o_attrs o)).
Proof. intros c o H. eapply wf_NoDup; eauto. Qed.
Lemma bone_no_default : forall ver k, In k ["name"; "parent"] -> dget k (default_values CBone ver) = None.
Proof. intros ver k H. unfold default_values. destruct (ver_ge ver SPINE_3_8); destruct H as [<- | [<- | []]]; reflexivity. Qed.
Lemma slot_no_default : forall ver k, dget k (default_values CSlot ver) = None.
Proof. intros ver k. unfold default_values. destruct (ver_ge ver SPINE_3_8); reflexivity. Qed.
Lemma slot_field : forall ver s k, wf_obj CSlot s -> field (obj_json ver s) k = oget s k.
Proof. intros ver s k H. apply field_json; [eapply wf_keys; eauto | ]. destruct H as [-> _]. apply slot_no_default. Qed.
Lemma name_str : forall c s, wf_obj c s -> c = CBone \/ c = CSlot -> exists n, oget s "name" = VStr n.
Proof.
  intros c s (Ec & _ & G) Hc. unfold type_guard in G. apply andb_prop in G as [_ G]. rewrite Ec in G.
  destruct Hc as [-> | ->]; destruct (oget s "name"); try discriminate; eauto.
Qed.
Lemma slot_name_field : forall ver s, wf_obj CSlot s -> field (obj_json ver s) "name" = VStr (slot_name s).
Proof.
  intros ver s H. rewrite slot_field by auto. destruct (name_str CSlot s H) as [n E]; auto. unfold slot_name, ostr. rewrite E. auto.
Qed.
Lemma slot_named_iff : forall ver s n, wf_obj CSlot s -> (named (obj_json ver s) n <-> n = slot_name s).
Proof.
  intros ver s n H. unfold named, text. rewrite slot_name_field by auto. simpl. split; [intros <-; auto | intros ->; auto].
Qed.
Lemma att_field : forall ver o k, att_ok ver o -> In k ["name"; "path"] -> field (obj_json ver o) k = oget o k.
Proof.
  intros ver o k [H1 H2 _ _ _] Hk. apply field_json; auto. apply att_no_default; auto. simpl in *. tauto.
Qed.
Lemma image_att : forall ver o k, att_ok ver o -> image (obj_json ver o) k = VStr (att_image k o).
Proof.
  intros ver o k H. unfold image. rewrite (att_field ver o "path"), (att_field ver o "name") by (simpl; auto). unfold att_image, ostr.
  pose proof (ao_path ver o H) as Hp. pose proof (ao_name ver o H) as Hn.
  destruct (oget o "path") as [ | | | | [ | c p] | | ]; try discriminate; auto;
    destruct (oget o "name") as [ | | | | [ | c' p'] | | ]; try discriminate; auto.
Qed.

(** ** What the exported document lists *)
Definition doc_dict (x : document) : dict val := dset "skeleton" (VDict (doc_skeleton x)) (data_json (doc_version x) (doc_data x)).
Lemma document_json_dict : forall x, document_json x = VDict (doc_dict x).
Proof. reflexivity. Qed.
Lemma get_data_json : forall x k, k <> "skeleton" -> dget k (doc_dict x) = dget k (data_json (doc_version x) (doc_data x)).
Proof.
  intros x k H. unfold doc_dict. rewrite dget_dset. destruct (String.eqb k "skeleton") eqn:E; auto. apply String.eqb_eq in E. tauto.
Qed.
Lemma data_attrs_NoDup : forall ver d, NoDup (dkeys (data_attrs ver d)).
Proof. intros ver d. simpl. repeat (constructor; [simpl; intuition discriminate | ]). constructor. Qed.
Lemma each_list : forall A (f : A -> val) x k (l : list A), k <> "skeleton" ->
  dget k (data_attrs (doc_version x) (doc_data x)) = Some (jlist f l) ->
  get_or_none k (default_values CAnimData (doc_version x)) = vlist \/ get_or_none k (default_values CAnimData (doc_version x)) = VNone ->
  each (doc_dict x) k = map f l.
Proof.
  intros A f x k l Hk Hg Hd. unfold each. rewrite get_data_json by auto. unfold data_json. rewrite dget_export by apply data_attrs_NoDup.
  rewrite Hg. destruct (exported (default_values CAnimData (doc_version x)) k (jlist f l)) eqn:E; [reflexivity | ].
  unfold exported, jlist in E. simpl is_none in E. cbv iota in E. apply negb_false_iff in E.
  destruct Hd as [Hd | Hd]; rewrite Hd in E; destruct l; auto; discriminate.
Qed.
Lemma each_bones : forall x, each (doc_dict x) "bones" = map (obj_json (doc_version x)) (d_bones (doc_data x)).
Proof. intros x. apply each_list; [discriminate | reflexivity | ]. left. apply def_list. simpl. tauto. Qed.
Lemma each_slots : forall x, each (doc_dict x) "slots" = map (obj_json (doc_version x)) (d_slots (doc_data x)).
Proof. intros x. apply each_list; [discriminate | reflexivity | ]. left. apply def_list. simpl. tauto. Qed.
Lemma each_ik : forall x, each (doc_dict x) "ik" = map (obj_json (doc_version x)) (d_ik (doc_data x)).
Proof. intros x. apply each_list; [discriminate | reflexivity | ]. left. apply def_list. simpl. tauto. Qed.
Lemma each_skins : forall x, each (doc_dict x) "skins" = map (skin_json (doc_version x)) (d_skins (doc_data x)).
Proof.
  intros x. apply each_list; [discriminate | reflexivity | ]. right. unfold default_values.
  destruct (ver_ge (doc_version x) SPINE_3_8); reflexivity.
Qed.

Lemma skin_field : forall ver s, skin_ok ver s ->
  field (skin_json ver s) "attachments" = match sk_atts s with [] => VNone | _ => VDict (dmap (fun m => VDict (dmap (obj_json ver) m)) (sk_atts s)) end.
Proof.
  intros ver s H. unfold skin_json, export, field. rewrite dget_export.
  2: { simpl. repeat (constructor; [simpl; intuition discriminate | ]). constructor. }
  change (dget "attachments" [("name", opt_val (sk_name s)); ("attachments", match sk_attachments s with Some a => jdict (jdict (obj_json ver)) a | None => VNone end)])
    with (Some (match sk_attachments s with Some a => jdict (jdict (obj_json ver)) a | None => VNone end)).
  rewrite (sk_atts_some ver s H). unfold exported. simpl is_none. cbv iota. rewrite (def_dict CSkin38 ver "attachments") by (simpl; tauto).
  destruct (sk_atts s); reflexivity.
Qed.
Lemma listed_att : forall x sl k a, dinv (doc_version x) (doc_data x) ->
  (listed (doc_dict x) sl k a <-> exists o, skin_attachment (doc_data x) sl k o /\ a = obj_json (doc_version x) o).
Proof.
  intros x sl k a D. unfold listed. rewrite each_skins. set (ver := doc_version x) in *. set (d := doc_data x) in *. pose proof (di_skins ver d D) as F.
  rewrite Forall_forall in F. split.
  - intros (skin & atts & m & Hs & Ha & Hm & Hi). apply in_map_iff in Hs as (s & <- & Hs). specialize (F s Hs).
    rewrite (skin_field ver s F) in Ha.
    assert (Ea : atts = dmap (fun m => VDict (dmap (obj_json ver) m)) (sk_atts s)).
    { destruct (sk_atts s); [discriminate | ]. injection Ha as <-. reflexivity. }
    subst atts.
    apply dget_some_in in Hm. unfold dmap in Hm. apply in_map_iff in Hm as ([sl2 m2] & E & Hm). simpl in E. injection E as -> <-.
    apply in_map_iff in Hi as ([k2 o] & E & Ho). simpl in E. injection E as -> <-. exists o. split; auto. exists s, m2. auto.
  - intros (o & (s & m & Hs & Hm & Ho) & ->). specialize (F s Hs). exists (skin_json ver s), (dmap (fun m => VDict (dmap (obj_json ver) m)) (sk_atts s)), (dmap (obj_json ver) m).
    split; [apply in_map; auto | ]. split; [ | split].
    + rewrite (skin_field ver s F). destruct (sk_atts s); [destruct Hm | reflexivity].
    + destruct (so_keys ver s F) as [N _]. rewrite dget_dmap. rewrite (in_dget sl (sk_atts s) m); auto.
    + unfold dmap. apply in_map_iff. exists (k, o). auto.
Qed.
Lemma slot_named_att : forall x s, dinv (doc_version x) (doc_data x) ->
  (slot_named (doc_dict x) s <-> In s (map slot_name (d_slots (doc_data x)))).
Proof.
  intros x s D. unfold slot_named. rewrite each_slots. pose proof (di_slots _ _ D) as F. rewrite Forall_forall in F. split.
  - intros (v & Hv & E). apply in_map_iff in Hv as (o & <- & Ho). destruct (F o Ho) as [W _]. rewrite slot_name_field in E by auto.
    injection E as <-. apply in_map. auto.
  - intros H. apply in_map_iff in H as (o & <- & Ho). destruct (F o Ho) as [W _]. exists (obj_json (doc_version x) o).
    split; [apply in_map; auto | ]. apply slot_name_field. auto.
Qed.

(** ** The graph in step with the document *)
Definition listed_as (ver : version) (g : sgraph) (t : string) (l : list obj) : Prop :=
  StronglySorted idx_le (map snd (tn g t)) /\ map nd_data (map snd (tn g t)) = map (obj_json ver) l.
Record sync (ver : version) (g : sgraph) (d : anim_data) (bs ss is : list obj) : Prop := {
  sy_view : gview g;
  sy_bones : listed_as ver g T_BONE bs;
  sy_slots : listed_as ver g T_SLOT ss;
  sy_ik : listed_as ver g T_IK is;
  sy_ids : map fst (tn g T_SLOT) = map slot_id (map slot_name ss);
  sy_names : map slot_name (d_slots d) = map slot_name ss;
  sy_bones_ok : Forall (loaded_obj ver CBone) bs;
  sy_slots_ok : Forall (loaded_obj ver CSlot) ss;
  sy_ik_ok : Forall (loaded_obj ver CIk) is;
  sy_atts : forall sl k o, skin_attachment d sl k o ->
    edge g (slot_id sl) (att_id k) /\ edge g (att_id k) (img_id (att_image k o)) }.

Lemma edge_slot : forall x g, dinv (doc_version x) (doc_data x) -> built (doc_dict x) g -> forall s c,
  edge g (slot_id s) c <-> exists k o, skin_attachment (doc_data x) s k o /\ In s (map slot_name (d_slots (doc_data x))) /\ c = att_id k.
Proof.
  intros x g D B s c. rewrite (bu_edges _ _ B). split.
  - intros H. remember (slot_id s) as p eqn:Ep. destruct H as [l1 v l2 s' q H1 H2 H3 H4 | v s' b H1 H2 H3 H4 | s' k a H1 H2 | s' k a i H1 H2 H3 | v s' y b H1 H2 H3 H4 H5 | v s' b H1 H2 H3 H4 H5].
    + apply (id_inj T_BONE T_SLOT) in Ep as [E _]; five. discriminate.
    + apply (id_inj T_BONE T_SLOT) in Ep as [E _]; five. discriminate.
    + apply slot_inj in Ep. subst s'. apply listed_att in H2 as (o & Ho & _); auto. exists k, o. split; auto. split; auto.
      apply slot_named_att; auto.
    + apply (id_inj T_ATTACHMENT T_SLOT) in Ep as [E _]; five. discriminate.
    + apply (id_inj T_IK T_SLOT) in Ep as [E _]; five. discriminate.
    + apply (id_inj T_BONE T_SLOT) in Ep as [E _]; five. discriminate.
  - intros (k & o & H1 & H2 & ->). apply (ref_slot_attachment _ s k (obj_json (doc_version x) o)).
    + apply slot_named_att; auto.
    + apply listed_att; eauto.
Qed.
Lemma edge_att : forall x g, dinv (doc_version x) (doc_data x) -> built (doc_dict x) g -> forall k c,
  edge g (att_id k) c <-> exists s o, skin_attachment (doc_data x) s k o /\ In s (map slot_name (d_slots (doc_data x))) /\ c = img_id (att_image k o).
Proof.
  intros x g D B k c. rewrite (bu_edges _ _ B). assert (A : forall s k o, skin_attachment (doc_data x) s k o -> att_ok (doc_version x) o).
  { intros s k' o (sk & m & H1 & H2 & H3). pose proof (di_skins _ _ D) as F. rewrite Forall_forall in F. eapply so_atts; eauto. }
  split.
  - intros H. remember (att_id k) as p eqn:Ep. destruct H as [l1 v l2 s' q H1 H2 H3 H4 | v s' b H1 H2 H3 H4 | s' k' a H1 H2 | s' k' a i H1 H2 H3 | v s' y b H1 H2 H3 H4 H5 | v s' b H1 H2 H3 H4 H5].
    + apply (id_inj T_BONE T_ATTACHMENT) in Ep as [E _]; five. discriminate.
    + apply (id_inj T_BONE T_ATTACHMENT) in Ep as [E _]; five. discriminate.
    + apply (id_inj T_SLOT T_ATTACHMENT) in Ep as [E _]; five. discriminate.
    + apply att_inj in Ep. subst k'. apply listed_att in H2 as (o & Ho & ->); auto. exists s', o. split; auto. split; [apply slot_named_att; auto | ].
      rewrite image_att in H3 by eauto. unfold text in H3. cbn in H3. subst. auto.
    + apply (id_inj T_IK T_ATTACHMENT) in Ep as [E _]; five. discriminate.
    + apply (id_inj T_BONE T_ATTACHMENT) in Ep as [E _]; five. discriminate.
  - intros (s & o & H1 & H2 & ->). apply (ref_attachment_image _ s k (obj_json (doc_version x) o)).
    + apply slot_named_att; auto.
    + apply listed_att; eauto.
    + rewrite image_att by eauto. reflexivity.
Qed.
Lemma edge_to_att : forall d g, built d g -> forall p k, edge g p (att_id k) -> exists s, p = slot_id s.
Proof.
  intros d g B p k H. apply (bu_edges _ _ B) in H. remember (att_id k) as c eqn:Ec.
  destruct H as [l1 v l2 s' q H1 H2 H3 H4 | v s' b H1 H2 H3 H4 | s' k' a H1 H2 | s' k' a i H1 H2 H3 | v s' y b H1 H2 H3 H4 H5 | v s' b H1 H2 H3 H4 H5].
  - apply (id_inj T_BONE T_ATTACHMENT) in Ec as [E _]; five. discriminate.
  - apply (id_inj T_SLOT T_ATTACHMENT) in Ec as [E _]; five. discriminate.
  - eauto.
  - apply (id_inj T_IMAGE T_ATTACHMENT) in Ec as [E _]; five. discriminate.
  - apply (id_inj T_BONE T_ATTACHMENT) in Ec as [E _]; five. discriminate.
  - apply (id_inj T_IK T_ATTACHMENT) in Ec as [E _]; five. discriminate.
Qed.
Lemma edge_to_img : forall d g, built d g -> forall p i, edge g p (img_id i) -> exists k, p = att_id k.
Proof.
  intros d g B p k H. apply (bu_edges _ _ B) in H. remember (img_id k) as c eqn:Ec.
  destruct H as [l1 v l2 s' q H1 H2 H3 H4 | v s' b H1 H2 H3 H4 | s' k' a H1 H2 | s' k' a i H1 H2 H3 | v s' y b H1 H2 H3 H4 H5 | v s' b H1 H2 H3 H4 H5].
  - apply (id_inj T_BONE T_IMAGE) in Ec as [E _]; five. discriminate.
  - apply (id_inj T_SLOT T_IMAGE) in Ec as [E _]; five. discriminate.
  - apply (id_inj T_ATTACHMENT T_IMAGE) in Ec as [E _]; five. discriminate.
  - eauto.
  - apply (id_inj T_BONE T_IMAGE) in Ec as [E _]; five. discriminate.
  - apply (id_inj T_IK T_IMAGE) in Ec as [E _]; five. discriminate.
Qed.

Lemma built_view : forall x g, dinv (doc_version x) (doc_data x) -> built (doc_dict x) g -> gview g.
Proof.
  intros x g D B.
  assert (A : forall k, has g T_ATTACHMENT k -> exists s o, skin_attachment (doc_data x) s k o /\ In s (map slot_name (d_slots (doc_data x)))).
  { intros k H. apply (bu_atts _ _ B) in H as (s & a & H1 & H2). apply listed_att in H2 as (o & Ho & _); auto. apply slot_named_att in H1; auto. eauto. }
  constructor.
  - apply (bu_good _ _ B).
  - intros s c H. apply (edge_slot x g D B) in H as (k & _ & _ & _ & ->). eauto.
  - intros k c H. apply (edge_att x g D B) in H as (s & o & _ & _ & ->). eauto.
  - eapply edge_to_att; eauto.
  - eapply edge_to_img; eauto.
  - intros k H. destruct (A k H) as (s & o & H1 & H2). exists s. apply (edge_slot x g D B). eauto.
  - intros i H. apply (bu_imgs _ _ B) in H as (s & k & a & H1 & H2 & H3). exists k. apply (bu_edges _ _ B). eapply ref_attachment_image; eauto.
  - intros k H. destruct (A k H) as (s & o & H1 & H2). exists (att_image k o). apply (edge_att x g D B). eauto.
Qed.
Lemma names_slots : forall ver l, Forall (loaded_obj ver CSlot) l -> names (map (obj_json ver) l) = map slot_name l.
Proof.
  intros ver l H. induction H as [ | s l [W _] H IH]; auto. unfold names in *. cbn [map]. rewrite slot_name_field by auto.
  simpl. f_equal. auto.
Qed.

(** Every slot key of a skin is the name of a slot. *)
Definition skins_ok (d : anim_data) : Prop := forall sl k o, skin_attachment d sl k o -> In sl (map slot_name (d_slots d)).
Lemma build_sync : forall x g, dinv (doc_version x) (doc_data x) -> skins_ok (doc_data x) ->
  create_from_json_data (document_json x) = Ok g ->
  sync (doc_version x) g (doc_data x) (d_bones (doc_data x)) (d_slots (doc_data x)) (d_ik (doc_data x)).
Proof.
  intros x g D K E. rewrite document_json_dict in E. apply build_ok in E as B. constructor.
  - eapply built_view; eauto.
  - pose proof (bu_bones _ _ B) as L. rewrite each_bones in L. apply lists_sorted in L. exact L.
  - pose proof (bu_slots _ _ B) as L. rewrite each_slots in L. apply lists_sorted in L. exact L.
  - pose proof (bu_iks _ _ B) as L. rewrite each_ik in L. apply lists_sorted in L. exact L.
  - pose proof (bu_slots _ _ B) as L. apply lists_names in L. rewrite L, each_slots. unfold enumerate. rewrite map_snd_enumerate.
    rewrite names_slots by apply (di_slots _ _ D). reflexivity.
  - reflexivity.
  - apply (di_bones _ _ D).
  - apply (di_slots _ _ D).
  - apply (di_ik _ _ D).
  - intros sl k o H. split.
    + apply (edge_slot x g D B). exists k, o. eauto.
    + apply (edge_att x g D B). exists sl, o. eauto.
Qed.

(** Loading checks that the skins name slots. *)
Lemma foldM_each : forall A B (f : B -> A -> res B) l b r, foldM f b l = Ok r -> forall x, In x l -> exists b1 b2, f b1 x = Ok b2.
Proof.
  intros A B f l. induction l as [ | y l IH]; simpl; intros b r E x H; [destruct H | ]. inv_bind E.
  destruct H as [<- | H]; eauto.
Qed.
Lemma get_slot_in : forall d n s, get_slot d n = Some s -> In n (map slot_name (d_slots d)).
Proof.
  intros d n s H. apply find_some in H as [H1 H2]. apply String.eqb_eq in H2. subst n. apply in_map. auto.
Qed.
Lemma images_skins : forall x l, get_images_references x = Ok l -> skins_ok (doc_data x).
Proof.
  intros x l E sl k o (s & m & Hs & Hm & Ho). unfold get_images_references in E.
  destruct (foldM_each _ _ _ _ _ _ E s Hs) as (b1 & b2 & E1). destruct (ver_ge (doc_version x) SPINE_3_8); [ | discriminate].
  destruct (foldM_each _ _ _ _ _ _ E1 (sl, m) Hm) as (b3 & b4 & E2). unfold add_slot_images in E2. simpl in E2. inv_bind E2.
  unfold get_slot_custom_scale in E0. destruct (get_slot (doc_data x) sl) eqn:Eg; [ | discriminate]. eapply get_slot_in; eauto.
Qed.
Lemma mk_editor_inv : forall j e, mk_editor j = Ok e ->
  load_document j = Ok (e_doc e) /\ get_images_references (e_doc e) = Ok (e_images e) /\
  create_from_json_data (document_json (e_doc e)) = Ok (e_graph e).
Proof. intros j e E. unfold mk_editor in E. inv_bind E. inv_bind E. inv_bind E. injection E as <-. auto. Qed.
Lemma loaded_sync : forall e, loaded e -> dinv (e_ver e) (e_data e) /\ skins_ok (e_data e) /\
  sync (e_ver e) (e_graph e) (e_data e) (d_bones (e_data e)) (d_slots (e_data e)) (d_ik (e_data e)).
Proof.
  intros e (j & P & E). apply mk_editor_inv in E as (E1 & E2 & E3). assert (D : dinv (e_ver e) (e_data e)) by (eapply load_dinv; eauto).
  assert (K : skins_ok (e_data e)) by (eapply images_skins; eauto). split; [auto | split; [auto | ]]. apply build_sync; auto.
Qed.
