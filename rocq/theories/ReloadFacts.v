(** Reading back an exported document (C09, C10). *)
From Verif Require Import PyBase PyNum Json Version PyFacts VersionFacts Classes ClassFacts DocFacts.
Open Scope string_scope.

(** The document obtained by reading the export, before the defaults are filled in. *)
Section Raw.
  Variable ver : version.
  Notation rw := (raw ver).
  Definition slot_timeline_raw := slot_timeline_map rw.
  Definition bone_timeline_raw := bone_timeline_map rw.
  Definition draw_order_raw (d : draw_order) : draw_order :=
    mkDrawOrder (if exported (default_values CDrawOrder ver) "time" (do_time d) then do_time d else VInt 0)
      (map rw (do_offsets d)).
  Definition animation_raw (a : animation) : animation :=
    mkAnimation (dmap (map rw) (an_ik a)) (map draw_order_raw (an_drawOrder a))
      (dmap bone_timeline_raw (an_bones a)) (dmap slot_timeline_raw (an_slots a))
      (map rw (an_events a)) (dmap (map rw) (an_transform a))
      (dmap (dmap (map rw)) (an_path a)) (dmap (dmap (dmap (map rw))) (an_deform a)).
  Definition skin_raw (s : skin) : skin :=
    mkSkin (if opt_eqb (sk_name s) (Some "") then None else sk_name s)
      (match sk_attachments s with
       | Some [] | None => None
       | Some a => Some (dmap (dmap rw) a)
       end).
  Definition data_raw (d : anim_data) : anim_data :=
    mkData (map rw (d_bones d)) (map rw (d_slots d)) (map skin_raw (d_skins d))
      (dmap rw (d_events d)) (map rw (d_ik d)) (map rw (d_transform d)) (map rw (d_path d))
      (dmap animation_raw (d_animations d)).
End Raw.

(** ** Reading an exported list or dictionary attribute *)
Lemma list_of_export : forall A B (f : val -> res A) (g : B -> val) defs attrs k l,
  NoDup (dkeys attrs) -> dget k attrs = Some (jlist g l) ->
  get_or_none k defs = vlist \/ get_or_none k defs = VNone ->
  list_of f (dget k (export_attrs defs attrs)) = mapM (fun x => f (g x)) l.
Proof.
  intros A B f g defs attrs k l Hn Hk Hd. rewrite dget_export by auto. rewrite Hk.
  unfold exported. simpl is_none. cbv iota.
  destruct Hd as [-> | ->].
  - destruct l; simpl; auto. rewrite mapM_map. auto.
  - simpl. rewrite mapM_map. auto.
Qed.
Lemma dict_of_export : forall A B (f : val -> res A) (g : B -> val) defs attrs k d,
  NoDup (dkeys attrs) -> dget k attrs = Some (jdict g d) -> get_or_none k defs = vdict ->
  dict_of f (dget k (export_attrs defs attrs)) = dmapM (fun x => f (g x)) d.
Proof.
  intros A B f g defs attrs k d Hn Hk Hd. rewrite dget_export by auto. rewrite Hk.
  unfold exported. simpl is_none. cbv iota. rewrite Hd.
  destruct d; simpl; auto. unfold dmapM. simpl. f_equal. unfold dmap. rewrite mapM_map. auto.
Qed.
Lemma items_of_export : forall A B (f : val -> res A) (g : B -> val) defs attrs k d,
  NoDup (dkeys attrs) -> dget k attrs = Some (jdict g d) -> get_or_none k defs = vdict ->
  items_of f (match dget k (export_attrs defs attrs) with Some x => x | None => vdict end) =
  dmapM (fun x => f (g x)) d.
Proof.
  intros A B f g defs attrs k d Hn Hk Hd. rewrite dget_export by auto. rewrite Hk.
  unfold exported. simpl is_none. cbv iota. rewrite Hd.
  destruct d; simpl; auto. unfold items_of. simpl. unfold dmapM. simpl. f_equal. unfold dmap.
  rewrite mapM_map. auto.
Qed.
Lemma list_of_jlist : forall A B (f : val -> res A) (g : B -> val) l,
  list_of f (Some (jlist g l)) = mapM (fun x => f (g x)) l.
Proof. intros. simpl. apply mapM_map. Qed.
Lemma items_of_jdict : forall A B (f : val -> res A) (g : B -> val) d,
  items_of f (jdict g d) = dmapM (fun x => f (g x)) d.
Proof. intros. unfold items_of. simpl. unfold dmapM, dmap. apply mapM_map. Qed.

Lemma check_keys_export : forall c defs attrs,
  dkeys attrs = attrs_of c -> required c = [] ->
  check_keys (attrs_of c) (required c) (export_attrs defs attrs) = Ok tt.
Proof.
  intros c defs attrs Hk Hr. rewrite check_keys_spec.
  assert (Hu : unknown c (export_attrs defs attrs) = []).
  { apply unknown_nil. intros k Hi. rewrite <- Hk. unfold export_attrs, dkeys in *.
    apply in_map_iff in Hi as [[k' v] [<- Hi]]. apply filter_In in Hi as [Hi _].
    apply in_map with (f := fst) in Hi. auto. }
  rewrite Hu. unfold missing. rewrite Hr. auto.
Qed.

Definition attrs_nodup (c : cls) (attrs : dict val) (H : dkeys attrs = attrs_of c) : NoDup (dkeys attrs) :=
  eq_ind_r (@NoDup string) (attrs_of_NoDup c) H.

(** The default of an attribute that holds a list (or dictionary) of elements. *)
Lemma def_list : forall c ver k, In (c, k)
  [(CSlotTimeline, "attachment"); (CSlotTimeline, "color"); (CSlotTimeline, "twoColor");
   (CBoneTimeline, "rotate"); (CBoneTimeline, "translate"); (CBoneTimeline, "scale"); (CBoneTimeline, "shear");
   (CAnimation, "drawOrder"); (CAnimation, "events"); (CAnimData, "ik"); (CAnimData, "transform");
   (CAnimData, "path"); (CAnimData, "bones"); (CAnimData, "slots")] ->
  get_or_none k (default_values c ver) = vlist.
Proof.
  intros c ver k H. unfold default_values. simpl in H.
  repeat (destruct H as [H | H]; [inversion H; subst; destruct (ver_ge ver SPINE_3_8); reflexivity | ]). destruct H.
Qed.
Lemma def_dict : forall c ver k, In (c, k)
  [(CAnimation, "ik"); (CAnimation, "bones"); (CAnimation, "slots"); (CAnimation, "transform");
   (CAnimation, "path"); (CAnimation, "deform"); (CAnimData, "events"); (CAnimData, "animations");
   (CSkin38, "attachments")] ->
  get_or_none k (default_values c ver) = vdict.
Proof.
  intros c ver k H. unfold default_values. simpl in H.
  repeat (destruct H as [H | H]; [inversion H; subst; destruct (ver_ge ver SPINE_3_8); reflexivity | ]). destruct H.
Qed.

Section Reload.
  Variable ver : version.
  Notation oj := (obj_json ver).
  (** The element can be read back. *)
  Definition ok_obj (c : cls) (o : obj) : Prop := wf_obj c o /\ req_ok o.
  Definition ok_att (o : obj) : Prop := wf_att o.

  Lemma ok_raw : forall c o, ok_obj c o -> mk_obj c (oj o) = Ok (raw ver o).
  Proof. intros c o [H1 H2]. apply mk_obj_json; auto. Qed.
  Lemma mapM_raw : forall c l, Forall (ok_obj c) l -> mapM (fun x => mk_obj c (oj x)) l = Ok (map (raw ver) l).
  Proof.
    intros c l H. apply mapM_all_ok. intros x Hx. apply ok_raw. rewrite Forall_forall in H. auto.
  Qed.

  Lemma mk_slot_timeline_json : forall t, slot_timeline_all ok_obj t ->
    mk_slot_timeline (slot_timeline_json ver t) = Ok (slot_timeline_raw ver t).
  Proof.
    intros t [H1 [H2 H3]]. unfold mk_slot_timeline, slot_timeline_json, export.
    set (attrs := [_; _; _]). assert (Hk : dkeys attrs = attrs_of CSlotTimeline) by reflexivity.
    pose proof (attrs_nodup _ _ Hk) as Hn.
    rewrite obj_values_dict. cbn [bind].
    rewrite (list_of_export _ _ _ _ _ attrs "attachment" (st_attachment t) Hn eq_refl)
      by (left; apply def_list; simpl; tauto).
    rewrite (list_of_export _ _ _ _ _ attrs "color" (st_color t) Hn eq_refl)
      by (left; apply def_list; simpl; tauto).
    rewrite (list_of_export _ _ _ _ _ attrs "twoColor" (st_twoColor t) Hn eq_refl)
      by (left; apply def_list; simpl; tauto).
    rewrite !mapM_raw by auto. cbn [bind].
    rewrite check_keys_export by auto. reflexivity.
  Qed.
  Lemma mk_bone_timeline_json : forall t, bone_timeline_all ok_obj t ->
    mk_bone_timeline (bone_timeline_json ver t) = Ok (bone_timeline_raw ver t).
  Proof.
    intros t [H1 [H2 [H3 H4]]]. unfold mk_bone_timeline, bone_timeline_json, export.
    set (attrs := [_; _; _; _]). assert (Hk : dkeys attrs = attrs_of CBoneTimeline) by reflexivity.
    pose proof (attrs_nodup _ _ Hk) as Hn.
    rewrite obj_values_dict. cbn [bind].
    rewrite (list_of_export _ _ _ _ _ attrs "rotate" (bt_rotate t) Hn eq_refl)
      by (left; apply def_list; simpl; tauto).
    rewrite (list_of_export _ _ _ _ _ attrs "translate" (bt_translate t) Hn eq_refl)
      by (left; apply def_list; simpl; tauto).
    rewrite (list_of_export _ _ _ _ _ attrs "scale" (bt_scale t) Hn eq_refl)
      by (left; apply def_list; simpl; tauto).
    rewrite (list_of_export _ _ _ _ _ attrs "shear" (bt_shear t) Hn eq_refl)
      by (left; apply def_list; simpl; tauto).
    rewrite !mapM_raw by auto. cbn [bind].
    rewrite check_keys_export by auto. reflexivity.
  Qed.
  Lemma mk_draw_order_json : forall d, draw_order_all ok_obj d ->
    mk_draw_order (draw_order_json ver d) = Ok (draw_order_raw ver d).
  Proof.
    intros d H. unfold mk_draw_order, draw_order_json, export.
    set (attrs := [_; _]). assert (Hk : dkeys attrs = attrs_of CDrawOrder) by reflexivity.
    pose proof (attrs_nodup _ _ Hk) as Hn.
    rewrite obj_values_dict. cbn [bind].
    rewrite (list_of_export _ _ _ _ _ attrs "offsets" (do_offsets d) Hn eq_refl).
    2: { right. unfold default_values. destruct (ver_ge ver SPINE_3_8); reflexivity. }
    rewrite mapM_raw by auto. cbn [bind].
    rewrite check_keys_export by auto. cbn [bind]. unfold draw_order_raw. f_equal. f_equal.
    rewrite dget_export by auto. change (dget "time" attrs) with (Some (do_time d)). cbv iota.
    destruct (exported (default_values CDrawOrder ver) "time" (do_time d)); reflexivity.
  Qed.

  Lemma dmapM_lists : forall c d, dall (Forall (ok_obj c)) d ->
    dmapM (fun x => list_of (mk_obj c) (Some (jlist oj x))) d = Ok (dmap (map (raw ver)) d).
  Proof.
    intros c d H. apply dmapM_all_ok. intros k v Hi. rewrite list_of_jlist. apply mapM_raw.
    eapply dall_in; eauto.
  Qed.
  Lemma mk_animation_json : forall a, animation_all ok_obj a ->
    mk_animation (animation_json ver a) = Ok (animation_raw ver a).
  Proof.
    intros a (H1 & H2 & H3 & H4 & H5 & H6 & H7 & H8). unfold mk_animation, animation_json, export.
    set (attrs := [_; _; _; _; _; _; _; _]). assert (Hk : dkeys attrs = attrs_of CAnimation) by reflexivity.
    pose proof (attrs_nodup _ _ Hk) as Hn.
    rewrite obj_values_dict. cbn [bind].
    rewrite (dict_of_export _ _ _ _ _ attrs "ik" (an_ik a) Hn eq_refl) by (apply def_dict; simpl; tauto).
    rewrite dmapM_lists by auto. cbn [bind].
    rewrite (list_of_export _ _ _ _ _ attrs "drawOrder" (an_drawOrder a) Hn eq_refl)
      by (left; apply def_list; simpl; tauto).
    rewrite (mapM_all_ok _ _ _ (draw_order_raw ver)).
    2: { intros x Hx. apply mk_draw_order_json. rewrite Forall_forall in H2. auto. }
    cbn [bind].
    rewrite (dict_of_export _ _ _ _ _ attrs "bones" (an_bones a) Hn eq_refl) by (apply def_dict; simpl; tauto).
    rewrite (dmapM_all_ok _ _ _ (bone_timeline_raw ver)).
    2: { intros k x Hx. apply mk_bone_timeline_json. eapply dall_in in H3; eauto. }
    cbn [bind].
    rewrite (dict_of_export _ _ _ _ _ attrs "slots" (an_slots a) Hn eq_refl) by (apply def_dict; simpl; tauto).
    rewrite (dmapM_all_ok _ _ _ (slot_timeline_raw ver)).
    2: { intros k x Hx. apply mk_slot_timeline_json. eapply dall_in in H4; eauto. }
    cbn [bind].
    rewrite (list_of_export _ _ _ _ _ attrs "events" (an_events a) Hn eq_refl)
      by (left; apply def_list; simpl; tauto).
    rewrite mapM_raw by auto. cbn [bind].
    rewrite (dict_of_export _ _ _ _ _ attrs "transform" (an_transform a) Hn eq_refl) by (apply def_dict; simpl; tauto).
    rewrite dmapM_lists by auto. cbn [bind].
    rewrite (items_of_export _ _ _ _ _ attrs "path" (an_path a) Hn eq_refl) by (apply def_dict; simpl; tauto).
    rewrite (dmapM_all_ok _ _ _ (dmap (map (raw ver)))).
    2: { intros k x Hx. rewrite items_of_jdict. apply dmapM_lists. eapply dall_in in H7; eauto. }
    cbn [bind].
    rewrite (items_of_export _ _ _ _ _ attrs "deform" (an_deform a) Hn eq_refl) by (apply def_dict; simpl; tauto).
    rewrite (dmapM_all_ok _ _ _ (dmap (dmap (map (raw ver))))).
    2: { intros k x Hx. rewrite items_of_jdict. apply dmapM_all_ok. intros k' x' Hx'. rewrite items_of_jdict.
         apply dmapM_lists. eapply dall_in in H8; eauto. eapply dall_in in H8; eauto. }
    cbn [bind].
    rewrite check_keys_export by auto. reflexivity.
  Qed.

  Lemma get_type_export : forall o, wf_att o ->
    get_or_none "type" (export_attrs (default_values (o_cls o) ver) (o_attrs o)) = oget o "type".
  Proof.
    intros o [H _]. pose proof (wf_NoDup _ _ H) as Hn. unfold get_or_none, oget. rewrite dget_export by auto.
    destruct (dget "type" (o_attrs o)) as [v | ] eqn:E; auto.
    unfold exported, get_or_none. rewrite type_no_default. destruct v; auto.
  Qed.
  Lemma att_req : forall o, wf_att o -> req_ok o.
  Proof.
    intros o [_ H] k Hi. exfalso. revert H Hi. generalize (o_cls o) (oget o "type"). intros c v.
    unfold attachment_class. destruct v; try discriminate; try (intros E; inversion E; subst; intros []).
    repeat match goal with
           | |- context [if ?b then _ else _] => destruct b; [intros E; inversion E; subst; intros [] | ]
           end. discriminate.
  Qed.
  Lemma mk_attachment_json : forall o, ok_att o -> mk_attachment (oj o) = Ok (raw ver o).
  Proof.
    intros o H. pose proof (att_req o H) as Hr. unfold mk_attachment, obj_json. cbn [as_dict bind].
    rewrite get_type_export by auto. destruct H as [H1 H2]. rewrite H2. cbn [bind].
    apply (mk_obj_json ver (o_cls o) o H1 Hr).
  Qed.
  Lemma mk_attachments_json : forall a, dall (dall ok_att) a ->
    mk_attachments (jdict (jdict oj) a) = Ok (dmap (dmap (raw ver)) a).
  Proof.
    intros a H. simpl. unfold dmap at 1. unfold dmapM. rewrite mapM_map. cbn [fst snd].
    change (dmapM (fun x => mk_attachments_of mk_attachment (jdict oj x)) a = Ok (dmap (dmap (raw ver)) a)).
    apply dmapM_all_ok. intros k x Hx. unfold jdict, mk_attachments_of. unfold dmapM, dmap at 1. rewrite mapM_map.
    change (dmapM (fun y => mk_attachment (oj y)) x = Ok (dmap (raw ver) x)).
    apply dmapM_all_ok. intros k' o Ho. apply mk_attachment_json.
    eapply dall_in in H; eauto. eapply dall_in in H; eauto.
  Qed.

  Lemma mk_skin_json : forall s, skin_all ok_att s -> mk_skin (skin_json ver s) = Ok (skin_raw ver s).
  Proof.
    intros s H. unfold mk_skin, skin_json, export.
    set (attrs := [_; _]). assert (Hk : dkeys attrs = attrs_of CSkin38) by reflexivity.
    pose proof (attrs_nodup _ _ Hk) as Hn.
    rewrite obj_values_dict. cbn [bind].
    rewrite check_keys_export by auto. cbn [bind].
    assert (En : get_or_none "name" (export_attrs (default_values CSkin38 ver) attrs) =
                 opt_val (if opt_eqb (sk_name s) (Some "") then None else sk_name s)).
    { unfold get_or_none at 1. rewrite dget_export by auto. simpl dget.
      assert (Ed : dget "name" (default_values CSkin38 ver) = Some (VStr ""))
        by (unfold default_values; destruct (ver_ge ver SPINE_3_8); reflexivity).
      unfold exported, get_or_none. rewrite Ed.
      destruct (sk_name s) as [n | ]; simpl; auto. unfold seqb. destruct (String.eqb n ""); auto. }
    assert (Ea : get_or_none "attachments" (export_attrs (default_values CSkin38 ver) attrs) =
                 match sk_attachments s with
                 | Some [] | None => VNone
                 | Some a => jdict (jdict oj) a
                 end).
    { unfold get_or_none at 1. rewrite dget_export by auto. simpl dget.
      assert (Ed : dget "attachments" (default_values CSkin38 ver) = Some vdict)
        by (unfold default_values; destruct (ver_ge ver SPINE_3_8); reflexivity).
      unfold exported, get_or_none. rewrite Ed.
      destruct (sk_attachments s) as [[ | x a] | ]; reflexivity. }
    rewrite En, Ea. unfold skin_raw. unfold skin_all in H.
    destruct (sk_attachments s) as [[ | x a] | ].
    - cbn [bind]. destruct (opt_eqb (sk_name s) (Some "")); [reflexivity | ]. destruct (sk_name s); reflexivity.
    - change (match jdict (jdict oj) (x :: a) with VNone => Ok None
              | _ => let! y := mk_attachments (jdict (jdict oj) (x :: a)) in Ok (Some y) end)
        with (let! y := mk_attachments (jdict (jdict oj) (x :: a)) in Ok (Some y)).
      rewrite mk_attachments_json by auto. cbn [bind].
      destruct (opt_eqb (sk_name s) (Some "")); [reflexivity | ]. destruct (sk_name s); reflexivity.
    - cbn [bind]. destruct (opt_eqb (sk_name s) (Some "")); [reflexivity | ]. destruct (sk_name s); reflexivity.
  Qed.

  Definition reloadable (d : anim_data) : Prop :=
    d_bones d <> [] /\ d_slots d <> [] /\ data_all ok_obj ok_att d.

  Lemma data_json_keys : forall d, dkeys (data_attrs ver d) = attrs_of CAnimData.
  Proof. reflexivity. Qed.
  Lemma ddel_skeleton : forall sk (d : anim_data),
    ddel "skeleton" (dset "skeleton" sk (data_json ver d)) = data_json ver d.
  Proof.
    intros. assert (Hk : ~ In "skeleton" (dkeys (data_json ver d))).
    { unfold data_json. intros Hi. unfold export_attrs, dkeys in Hi. apply in_map_iff in Hi as [[k v] [E Hi]].
      apply filter_In in Hi as [Hi _]. simpl in E. subst.
      simpl in Hi. repeat (destruct Hi as [Hi | Hi]; [inversion Hi | ]). destruct Hi. }
    rewrite dset_new by auto. unfold ddel. rewrite filter_app.
    rewrite (filter_none _ _ [("skeleton", sk)]).
    2: { intros x [<- | []]. reflexivity. }
    rewrite app_nil_r. apply ddel_absent. auto.
  Qed.
  Lemma dget_err_list : forall A B (f : val -> res A) (g : B -> val) defs attrs k l,
    NoDup (dkeys attrs) -> dget k attrs = Some (jlist g l) -> l <> [] \/ get_or_none k defs = VNone ->
    get_or_none k defs = vlist \/ get_or_none k defs = VNone ->
    (let! x := dget_err k (export_attrs defs attrs) in list_of f (Some x)) = mapM (fun x => f (g x)) l.
  Proof.
    intros A B f g defs attrs k l Hn Hk Hl Hd. unfold dget_err. rewrite dget_export by auto. rewrite Hk.
    unfold exported. simpl is_none. cbv iota.
    destruct Hd as [Hd | Hd]; rewrite Hd in *.
    - destruct l; [exfalso; destruct Hl as [Hl | Hl]; [apply Hl; auto | discriminate Hl] | ].
      simpl. rewrite mapM_map. auto.
    - simpl. rewrite mapM_map. auto.
  Qed.

  Lemma mk_data_json : forall sk d, reloadable d ->
    mk_data (dset "skeleton" sk (data_json ver d)) = Ok (data_raw ver d).
  Proof.
    intros sk d [Hb [Hs (H1 & H2 & H3 & H4 & H5 & H6 & H7 & H8)]]. unfold mk_data.
    rewrite ddel_skeleton. unfold data_json.
    set (attrs := data_attrs ver d). assert (Hk : dkeys attrs = attrs_of CAnimData) by reflexivity.
    pose proof (attrs_nodup _ _ Hk) as Hn.
    rewrite (dget_err_list _ _ _ _ _ attrs "bones" (d_bones d) Hn eq_refl)
      by (auto; left; apply def_list; simpl; tauto).
    rewrite mapM_raw by auto. cbn [bind].
    rewrite (dget_err_list _ _ _ _ _ attrs "slots" (d_slots d) Hn eq_refl)
      by (auto; left; apply def_list; simpl; tauto).
    rewrite mapM_raw by auto. cbn [bind].
    assert (Ed : get_or_none "skins" (default_values CAnimData ver) = VNone)
      by (unfold default_values; destruct (ver_ge ver SPINE_3_8); reflexivity).
    rewrite (dget_err_list _ _ _ _ _ attrs "skins" (d_skins d) Hn eq_refl) by auto.
    rewrite (mapM_all_ok _ _ _ (skin_raw ver)).
    2: { intros x Hx. apply mk_skin_json. rewrite Forall_forall in H3. auto. }
    cbn [bind].
    rewrite (dict_of_export _ _ _ _ _ attrs "events" (d_events d) Hn eq_refl) by (apply def_dict; simpl; tauto).
    rewrite (dmapM_all_ok _ _ _ (raw ver)).
    2: { intros k x Hx. apply ok_raw. eapply dall_in in H4; eauto. }
    cbn [bind].
    rewrite (list_of_export _ _ _ _ _ attrs "ik" (d_ik d) Hn eq_refl) by (left; apply def_list; simpl; tauto).
    rewrite (list_of_export _ _ _ _ _ attrs "transform" (d_transform d) Hn eq_refl) by (left; apply def_list; simpl; tauto).
    rewrite (list_of_export _ _ _ _ _ attrs "path" (d_path d) Hn eq_refl) by (left; apply def_list; simpl; tauto).
    rewrite !mapM_raw by auto. cbn [bind].
    rewrite (dict_of_export _ _ _ _ _ attrs "animations" (d_animations d) Hn eq_refl) by (apply def_dict; simpl; tauto).
    rewrite (dmapM_all_ok _ _ _ (animation_raw ver)).
    2: { intros k x Hx. apply mk_animation_json. eapply dall_in in H8; eauto. }
    cbn [bind].
    rewrite check_keys_export by auto. reflexivity.
  Qed.
End Reload.

(** ** The reloaded document *)
Definition reload_draw_order (ver : version) (d : draw_order) := draw_order_defaults ver (draw_order_raw ver d).
Definition reload_data (ver : version) (d : anim_data) : anim_data := data_defaults ver (data_raw ver d).
Definition reload_doc (x : document) : document :=
  mkDoc (doc_skeleton x) (doc_version x) (reload_data (doc_version x) (doc_data x)).

(** The document's version is the one its skeleton declares. *)
Definition ver_ok (x : document) : Prop :=
  exists s, dget "spine" (doc_skeleton x) = Some (VStr s) /\ mk_version s = Ok (doc_version x).

Lemma load_document_json : forall x, ver_ok x -> reloadable (doc_data x) ->
  load_document (document_json x) = Ok (reload_doc x).
Proof.
  intros x [s [Hs Hv]] H. unfold load_document, document_json.
  unfold dget_err. rewrite dget_dset_same. cbn [bind]. unfold py_item, dget_err. rewrite Hs. cbn [bind].
  rewrite Hv. cbn [bind]. rewrite mk_data_json by auto. reflexivity.
Qed.

(** ** Exporting the reloaded document *)
Section Same.
  Variable ver : version.
  Notation oj := (obj_json ver).
  Notation rl := (reload ver).
  Lemma map_rl : forall c l, Forall (wf_obj c) l -> map oj (map (obj_set_defaults ver) (map (raw ver) l)) = map oj l.
  Proof.
    intros c l H. rewrite !map_map. apply map_ext_in. intros x Hx. rewrite Forall_forall in H.
    apply (reload_json ver c). auto.
  Qed.
  Lemma jlist_rl : forall c l, Forall (wf_obj c) l -> jlist oj (map (obj_set_defaults ver) (map (raw ver) l)) = jlist oj l.
  Proof. intros. unfold jlist. f_equal. eapply map_rl; eauto. Qed.
  Lemma jdict_ext2 : forall A (f : A -> A) (g : A -> val) (Q : A -> Prop) d,
    (forall x, Q x -> g (f x) = g x) -> dall Q d -> jdict g (dmap f d) = jdict g d.
  Proof.
    intros A f g Q d H Hd. unfold jdict. rewrite dmap_dmap. f_equal. apply dmap_ext. intros k v Hi.
    apply H. eapply dall_in in Hd; eauto.
  Qed.
  Lemma jlist_ext2 : forall A (f : A -> A) (g : A -> val) (Q : A -> Prop) l,
    (forall x, Q x -> g (f x) = g x) -> Forall Q l -> jlist g (map f l) = jlist g l.
  Proof.
    intros A f g Q l H Hl. unfold jlist. rewrite map_map. f_equal. apply map_ext_in. intros x Hx.
    apply H. rewrite Forall_forall in Hl. auto.
  Qed.

  Lemma slot_timeline_same : forall t, slot_timeline_all wf_obj t ->
    slot_timeline_json ver (slot_timeline_defaults ver (slot_timeline_raw ver t)) = slot_timeline_json ver t.
  Proof.
    intros t [H1 [H2 H3]]. unfold slot_timeline_json. simpl. rewrite !(jlist_rl CSlotKeyframe) by auto. auto.
  Qed.
  Lemma bone_timeline_same : forall t, bone_timeline_all wf_obj t ->
    bone_timeline_json ver (bone_timeline_defaults ver (bone_timeline_raw ver t)) = bone_timeline_json ver t.
  Proof.
    intros t [H1 [H2 [H3 H4]]]. unfold bone_timeline_json. simpl.
    rewrite (jlist_rl CBoneRS (bt_rotate t)), (jlist_rl CBoneTS (bt_translate t)),
      (jlist_rl CBoneRS (bt_scale t)), (jlist_rl CBoneTS (bt_shear t)) by auto. auto.
  Qed.
  Lemma draw_order_same : forall d, draw_order_all wf_obj d ->
    (dget "time" (default_values CDrawOrder ver) = None -> do_time d <> VNone) ->
    draw_order_json ver (draw_order_defaults ver (draw_order_raw ver d)) = draw_order_json ver d.
  Proof.
    intros d H Ht. unfold draw_order_json. simpl. rewrite (jlist_rl CDrawOffset) by auto.
    unfold export. f_equal. unfold export_attrs. simpl.
    set (offs := if exported _ "offsets" _ then _ else _). clearbody offs.
    unfold default_values in *. destruct (ver_ge ver SPINE_3_8); simpl in *.
    - unfold exported, get_or_none. simpl. destruct (do_time d) eqn:Et; simpl; auto;
        match goal with |- context [negb ?b] => destruct b eqn:Eb end; simpl; auto; rewrite ?Eb; auto.
    - specialize (Ht eq_refl). unfold exported, get_or_none. simpl.
      destruct (do_time d) eqn:Et; simpl; auto. congruence.
  Qed.
  Definition time_ok (d : draw_order) : Prop :=
    dget "time" (default_values CDrawOrder ver) = None -> do_time d <> VNone.
  Lemma animation_same : forall a, animation_all wf_obj a -> Forall time_ok (an_drawOrder a) ->
    animation_json ver (animation_defaults ver (animation_raw ver a)) = animation_json ver a.
  Proof.
    intros a (H1 & H2 & H3 & H4 & H5 & H6 & H7 & H8) Ht. unfold animation_json. simpl.
    assert (E : forall c d, dall (Forall (wf_obj c)) d ->
      jdict (jlist oj) (dmap (map (obj_set_defaults ver)) (dmap (map (raw ver)) d)) = jdict (jlist oj) d).
    { intros c d Hd. rewrite dmap_dmap. eapply jdict_ext2; [ | exact Hd]. intros. eapply jlist_rl; eauto. }
    rewrite (E CIkTimeline (an_ik a)), (E CTransformTimeline (an_transform a)) by auto.
    rewrite (jlist_rl CEventTimeline) by auto.
    rewrite !dmap_dmap, !map_map.
    rewrite (jdict_ext2 _ _ _ _ _ bone_timeline_same H3).
    rewrite (jdict_ext2 _ _ _ _ _ slot_timeline_same H4).
    rewrite (jlist_ext2 _ (fun x => draw_order_defaults ver (draw_order_raw ver x)) _
               (fun d => draw_order_all wf_obj d /\ time_ok d)).
    2: { intros x [Hx1 Hx2]. apply draw_order_same; auto. }
    2: { rewrite Forall_forall in *. auto. }
    rewrite (jdict_ext2 _ (fun x => dmap (map (obj_set_defaults ver)) (dmap (map (raw ver)) x)) _ (dall (Forall (wf_obj CPathTimeline)))).
    2: { intros x Hx. apply E with (c := CPathTimeline). auto. }
    2: auto.
    rewrite (jdict_ext2 _ (fun x => dmap (dmap (map (obj_set_defaults ver))) (dmap (dmap (map (raw ver))) x)) _ (dall (dall (Forall (wf_obj CDeform))))).
    2: { intros x Hx. rewrite dmap_dmap. eapply jdict_ext2; [ | exact Hx]. intros y Hy. apply E with (c := CDeform). auto. }
    2: auto.
    reflexivity.
  Qed.
  Lemma skin_same : forall s, skin_all wf_att s -> loaded_skin s ->
    skin_json ver (skin_defaults ver (skin_raw ver s)) = skin_json ver s.
  Proof.
    intros s H [Hn Ha]. unfold skin_json. simpl.
    replace (opt_val _) with (opt_val (sk_name s)).
    2: { destruct (sk_name s) as [n | ]; [ | congruence]. simpl. destruct (String.eqb_spec n ""); subst; auto. }
    unfold skin_all in H. destruct (sk_attachments s) as [[ | x a] | ]; simpl; auto; [ | congruence].
    f_equal. f_equal. f_equal. f_equal.
    change ((fst x, dmap (obj_set_defaults ver) (dmap (raw ver) (snd x))) ::
            dmap (dmap (obj_set_defaults ver)) (dmap (dmap (raw ver)) a))%list
      with (dmap (dmap (obj_set_defaults ver)) (dmap (dmap (raw ver)) (x :: a))).
    rewrite dmap_dmap. eapply jdict_ext2; [ | exact H]. intros y Hy. rewrite dmap_dmap.
    eapply jdict_ext2; [ | exact Hy]. intros o [Ho _]. apply (reload_json ver (o_cls o) o Ho).
  Qed.
  Lemma data_same : forall d, data_all wf_obj wf_att d -> Forall loaded_skin (d_skins d) ->
    dall (fun a => Forall time_ok (an_drawOrder a)) (d_animations d) ->
    data_json ver (reload_data ver d) = data_json ver d.
  Proof.
    intros d (H1 & H2 & H3 & H4 & H5 & H6 & H7 & H8) Hs Ht. unfold data_json, data_attrs, reload_data. simpl.
    rewrite (jlist_rl CBone (d_bones d)), (jlist_rl CSlot (d_slots d)), (jlist_rl CIk (d_ik d)),
      (jlist_rl CTransform (d_transform d)), (jlist_rl CPath (d_path d)) by auto.
    rewrite !map_map, !dmap_dmap.
    rewrite (jlist_ext2 _ (fun x => skin_defaults ver (skin_raw ver x)) _ (fun s => skin_all wf_att s /\ loaded_skin s)).
    2: { intros x [Hx1 Hx2]. apply skin_same; auto. }
    2: { rewrite Forall_forall in *. auto. }
    rewrite (jdict_ext2 _ (fun x => obj_set_defaults ver (raw ver x)) _ (wf_obj CEvents)).
    2: { intros x Hx. apply (reload_json ver CEvents x Hx). }
    2: auto.
    rewrite (jdict_ext2 _ (fun x => animation_defaults ver (animation_raw ver x)) _
               (fun a => animation_all wf_obj a /\ Forall time_ok (an_drawOrder a))).
    2: { intros x [Hx1 Hx2]. apply animation_same; auto. }
    2: { apply dall_and. auto. }
    reflexivity.
  Qed.
End Same.

(** ** When the export can be read back *)
From Verif Require Import SpecDoc.

Lemma mapM_ok_obj : forall ver c l r, Forall (wf_obj c) l ->
  mapM (fun x => mk_obj c (obj_json ver x)) l = Ok r -> Forall (ok_obj c) l.
Proof.
  intros ver c l r H Hm. apply mapM_ok in Hm. apply Forall_forall. intros o Ho.
  rewrite Forall_forall in H. split; auto.
  assert (exists x, mk_obj c (obj_json ver o) = Ok x) as [x Hx].
  { clear H. induction Hm; destruct Ho; subst; eauto. }
  eapply mk_obj_json_req; eauto.
Qed.
Lemma mapM_each : forall A B (f : A -> res B) l r x, mapM f l = Ok r -> In x l -> exists y, f x = Ok y.
Proof. intros A B f l r x H Hi. apply mapM_ok in H. induction H; destruct Hi; subst; eauto. Qed.
Lemma dmapM_each : forall A B (f : A -> res B) d r k x, dmapM f d = Ok r -> In (k, x) d -> exists y, f x = Ok y.
Proof.
  intros A B f d r k x H Hi. unfold dmapM in H. destruct (mapM_each _ _ _ _ _ _ H Hi) as [y Hy].
  inv_bind Hy. eauto.
Qed.

Lemma bone_req : forall o, wf_obj CBone o -> req_ok o.
Proof.
  intros o [Hc [_ Hg]] k Hi. rewrite Hc in Hi. destruct Hi as [<- | []].
  unfold type_guard in Hg. rewrite Hc in Hg. apply andb_prop in Hg as [_ Hg]. destruct (oget o "name"); discriminate.
Qed.
Lemma slot_req : forall o, wf_obj CSlot o -> (req_ok o <-> oget o "bone" <> VNone).
Proof.
  intros o [Hc [_ Hg]]. unfold req_ok. rewrite Hc. simpl. split.
  - intros H. apply H. auto.
  - intros H k [<- | [<- | []]]; auto.
    unfold type_guard in Hg. rewrite Hc in Hg. apply andb_prop in Hg as [_ Hg]. destruct (oget o "name"); discriminate.
Qed.
Lemma offset_req : forall o, wf_obj CDrawOffset o -> (req_ok o <-> oget o "offset" <> VNone).
Proof.
  intros o [Hc _]. unfold req_ok. rewrite Hc. simpl. split.
  - intros H. apply H. auto.
  - intros H k [<- | []]; auto.
Qed.
Lemma other_req : forall c o, wf_obj c o -> required c = [] -> req_ok o.
Proof. intros c o [Hc _] H k Hi. rewrite Hc, H in Hi. destruct Hi. Qed.

Lemma Forall_ok_other : forall c l, required c = [] -> Forall (wf_obj c) l -> Forall (ok_obj c) l.
Proof. intros c l H Hl. eapply Forall_impl; [ | exact Hl]. intros o Ho. split; auto. eapply other_req; eauto. Qed.

Lemma data_ok_iff : forall d, data_all wf_obj wf_att d -> (data_all ok_obj ok_att d <-> no_null_required d).
Proof.
  intros d (H1 & H2 & H3 & H4 & H5 & H6 & H7 & H8). split.
  - intros (G1 & G2 & G3 & G4 & G5 & G6 & G7 & G8). split.
    + intros s Hs. rewrite Forall_forall in G2. destruct (G2 s Hs) as [W R]. exact (proj1 (slot_req s W) R).
    + intros n a dr o Hn Hdr Ho. eapply dall_in in G8; eauto. destruct G8 as (_ & G & _).
      rewrite Forall_forall in G. specialize (G dr Hdr). unfold draw_order_all in G. rewrite Forall_forall in G.
      destruct (G o Ho) as [W R]. exact (proj1 (offset_req o W) R).
  - intros [N1 N2]. repeat split; auto using Forall_ok_other.
    + eapply Forall_impl; [ | exact H1]. intros o Ho. split; auto. apply bone_req. auto.
    + rewrite Forall_forall in *. intros o Ho. split; auto. apply (proj2 (slot_req o (H2 o Ho))). auto.
    + eapply dall_impl; [ | exact H4]. intros o Ho. split; auto. eapply other_req; eauto.
    + unfold dall in *. rewrite Forall_forall in *. intros [n a] Hn.
      destruct (H8 _ Hn) as (A1 & A2 & A3 & A4 & A5 & A6 & A7 & A8). simpl in *.
      repeat split; auto using Forall_ok_other.
      * eapply dall_impl; [ | exact A1]. intros. apply Forall_ok_other; auto.
      * rewrite Forall_forall in *. intros dr Hdr. specialize (A2 dr Hdr). unfold draw_order_all in *.
        rewrite Forall_forall in *. intros o Ho. split; auto. apply (proj2 (offset_req o (A2 o Ho))). eauto.
      * eapply dall_impl; [ | exact A3]. intros t (B1 & B2 & B3 & B4). repeat split; apply Forall_ok_other; auto.
      * eapply dall_impl; [ | exact A4]. intros t (B1 & B2 & B3). repeat split; apply Forall_ok_other; auto.
      * eapply dall_impl; [ | exact A6]. intros. apply Forall_ok_other; auto.
      * eapply dall_impl; [ | exact A7]. intros x. apply dall_impl. intros. apply Forall_ok_other; auto.
      * eapply dall_impl; [ | exact A8]. intros x. apply dall_impl. intros y. apply dall_impl. intros. apply Forall_ok_other; auto.
Qed.

Lemma dget_err_nonempty : forall A B (f : val -> res A) (g : B -> val) defs attrs k l r,
  NoDup (dkeys attrs) -> dget k attrs = Some (jlist g l) -> get_or_none k defs = vlist ->
  (let! x := dget_err k (export_attrs defs attrs) in list_of f (Some x)) = Ok r -> l <> [].
Proof.
  intros A B f g defs attrs k l r Hn Hk Hd H ->. inv_bind H. unfold dget_err in E.
  rewrite dget_export in E by auto. rewrite Hk in E. unfold exported in E. simpl is_none in E. cbv iota in E.
  rewrite Hd in E. simpl in E. discriminate.
Qed.

Lemma mk_data_json_inv : forall ver sk d y, data_all wf_obj wf_att d ->
  mk_data (dset "skeleton" sk (data_json ver d)) = Ok y -> reloadable d.
Proof.
  intros ver sk d y Hw H.
  unfold mk_data in H. rewrite ddel_skeleton in H. unfold data_json in H.
  set (attrs := data_attrs ver d) in *. assert (Hk : dkeys attrs = attrs_of CAnimData) by reflexivity.
  pose proof (attrs_nodup _ _ Hk) as Hn.
  inv_bind H. inv_bind H. inv_bind H. inv_bind H. inv_bind H. inv_bind H. inv_bind H. inv_bind H. clear H.
  assert (Hb : d_bones d <> []).
  { eapply (dget_err_nonempty _ _ _ _ _ attrs "bones" (d_bones d) _ Hn eq_refl); [ | exact E].
    apply def_list; simpl; tauto. }
  assert (Hs : d_slots d <> []).
  { eapply (dget_err_nonempty _ _ _ _ _ attrs "slots" (d_slots d) _ Hn eq_refl); [ | exact E0].
    apply def_list; simpl; tauto. }
  split; [exact Hb | ]. split; [exact Hs | ]. apply data_ok_iff; auto. split.
  - rewrite (dget_err_list _ _ _ _ _ attrs "slots" (d_slots d) Hn eq_refl) in E0
      by (auto; left; apply def_list; simpl; tauto).
    apply mapM_ok_obj in E0; [ | apply Hw]. intros s Hi. rewrite Forall_forall in E0.
    destruct (E0 s Hi) as [W R]. exact (proj1 (slot_req s W) R).
  - intros n a dr o Hi Hdr Ho.
    rewrite (dict_of_export _ _ _ _ _ attrs "animations" (d_animations d) Hn eq_refl) in E6
      by (apply def_dict; simpl; tauto).
    destruct (dmapM_each _ _ _ _ _ _ _ E6 Hi) as [ya Ha].
    destruct Hw as (_ & _ & _ & _ & _ & _ & _ & W). eapply dall_in in W; eauto.
    destruct W as (_ & W & _). rewrite Forall_forall in W. specialize (W dr Hdr).
    unfold mk_animation, animation_json, export in Ha.
    set (attrs2 := [_; _; _; _; _; _; _; _]) in Ha. assert (Hk2 : dkeys attrs2 = attrs_of CAnimation) by reflexivity.
    pose proof (attrs_nodup _ _ Hk2) as Hn2. rewrite obj_values_dict in Ha. cbn [bind] in Ha.
    inv_bind Ha. inv_bind Ha. clear Ha.
    rewrite (list_of_export _ _ _ _ _ attrs2 "drawOrder" (an_drawOrder a) Hn2 eq_refl) in E8
      by (left; apply def_list; simpl; tauto).
    destruct (mapM_each _ _ _ _ _ _ E8 Hdr) as [yd Hd].
    unfold mk_draw_order, draw_order_json, export in Hd.
    set (attrs3 := [_; _]) in Hd. assert (Hk3 : dkeys attrs3 = attrs_of CDrawOrder) by reflexivity.
    pose proof (attrs_nodup _ _ Hk3) as Hn3. rewrite obj_values_dict in Hd. cbn [bind] in Hd.
    inv_bind Hd. clear Hd.
    rewrite (list_of_export _ _ _ _ _ attrs3 "offsets" (do_offsets dr) Hn3 eq_refl) in E9.
    2: { right. unfold default_values. destruct (ver_ge ver SPINE_3_8); reflexivity. }
    apply mapM_ok_obj in E9; auto. rewrite Forall_forall in E9. destruct (E9 o Ho) as [W' R']. exact (proj1 (offset_req o W') R').
Qed.

Lemma loaded_wf : forall ver d, loaded_data ver d -> data_all wf_obj wf_att d.
Proof.
  intros ver d [H _]. eapply data_all_impl; [ | | exact H].
  - intros c o [Ho _]. auto.
  - intros o [Ho _]. auto.
Qed.

Lemma load_ver_ok : forall v x, load_document v = Ok x -> ver_ok x.
Proof.
  intros v x H. apply load_document_inv in H as (d & sk & s & y & _ & _ & Hs & Hv & _ & Hsk & _).
  exists s. rewrite Hsk. auto.
Qed.

Lemma reloadable_iff : forall x, loaded_data (doc_version x) (doc_data x) -> ver_ok x ->
  ((exists y, load_document (document_json x) = Ok y) <->
   d_bones (doc_data x) <> [] /\ d_slots (doc_data x) <> [] /\ no_null_required (doc_data x)).
Proof.
  intros x H Hv. pose proof (loaded_wf _ _ H) as Hw. split.
  - intros [y Hy]. apply load_document_inv in Hy as (d & sk & s & z & Hd & _ & _ & _ & Hm & _ & _).
    unfold document_json in Hd. inversion Hd; subst d. apply mk_data_json_inv in Hm; auto.
    destruct Hm as [Hb [Hs Ha]]. split; auto. split; auto. apply data_ok_iff; auto.
  - intros [Hb [Hs Hr]]. exists (reload_doc x). apply load_document_json; auto. split; auto. split; auto.
    apply data_ok_iff; auto.
Qed.

Lemma load_unique : forall x y, loaded_data (doc_version x) (doc_data x) -> ver_ok x ->
  load_document (document_json x) = Ok y -> y = reload_doc x.
Proof.
  intros x y H Hv Hy. assert (E : exists z, load_document (document_json x) = Ok z) by eauto.
  apply reloadable_iff in E as [Hb [Hs Hr]]; auto.
  assert (load_document (document_json x) = Ok (reload_doc x)).
  { apply load_document_json; auto. split; auto. split; auto. apply data_ok_iff; auto. eapply loaded_wf; eauto. }
  congruence.
Qed.

(** The time of a draw order timeline only matters for versions without a default for it. *)
Lemma time_ok_any : forall ver d, no_null_time d \/ ver_ge ver SPINE_3_8 = true ->
  dall (fun a => Forall (time_ok ver) (an_drawOrder a)) (d_animations d).
Proof.
  intros ver d H. apply Forall_forall. intros [n a] Hi. apply Forall_forall. intros dr Hdr. unfold time_ok.
  intros Hd. destruct H as [H | H].
  - eapply H; eauto.
  - unfold default_values in Hd. rewrite H in Hd. discriminate.
Qed.

Lemma reload_stable : forall x y, loaded_data (doc_version x) (doc_data x) -> ver_ok x ->
  no_null_time (doc_data x) \/ ver_ge (doc_version x) SPINE_3_8 = true ->
  load_document (document_json x) = Ok y -> document_json y = document_json x.
Proof.
  intros x y H Hv Ht Hy. rewrite (load_unique x y H Hv Hy). unfold document_json, reload_doc. simpl.
  f_equal. f_equal. apply data_same.
  - eapply loaded_wf; eauto.
  - apply H.
  - apply time_ok_any. auto.
Qed.

(** ** C10: reloading keeps the values *)
Lemma Forall2_self : forall A (R : A -> A -> Prop) (f : A -> A) l,
  Forall (fun x => R x (f x)) l -> Forall2 R l (map f l).
Proof. intros A R f l H. induction H; simpl; constructor; auto. Qed.
Lemma drel_self : forall A (R : A -> A -> Prop) (f : A -> A) d,
  dall (fun x => R x (f x)) d -> drel R d (dmap f d).
Proof.
  intros A R f d H. unfold drel, dmap, dall in *. induction H as [ | [k v] d]; simpl; constructor; auto.
Qed.

Section Keep.
  Variable ver : version.
  Notation sdr := (fun o => obj_set_defaults ver (raw ver o)).
  Lemma obj_keep : forall c o, loaded_obj ver c o -> same_obj o (sdr o).
  Proof.
    intros c o [H Hf]. split; [reflexivity | ]. intros k Hk. assert (Hc : o_cls o = c) by apply H.
    rewrite Hc in Hk. apply (reload_same ver c o k H Hf Hk).
  Qed.
  Lemma objs_keep : forall c l, Forall (loaded_obj ver c) l -> same_objs l (map (obj_set_defaults ver) (map (raw ver) l)).
  Proof.
    intros c l H. rewrite map_map. apply Forall2_self. eapply Forall_impl; [ | exact H]. intros o. apply obj_keep.
  Qed.
  Lemma dobjs_keep : forall c d, dall (Forall (loaded_obj ver c)) d ->
    drel same_objs d (dmap (map (obj_set_defaults ver)) (dmap (map (raw ver)) d)).
  Proof.
    intros c d H. rewrite dmap_dmap. apply drel_self. eapply dall_impl; [ | exact H]. intros l. apply objs_keep.
  Qed.
  Lemma animation_keep : forall a, animation_all (loaded_obj ver) a -> Forall (loaded_draw_order ver) (an_drawOrder a) ->
    Forall (time_ok ver) (an_drawOrder a) ->
    same_animation a (animation_defaults ver (animation_raw ver a)).
  Proof.
    intros a (H1 & H2 & H3 & H4 & H5 & H6 & H7 & H8) Hl Ht.
    split; [apply (dobjs_keep CIkTimeline); auto | ].
    split.
    { simpl. rewrite map_map. apply Forall2_self. rewrite Forall_forall in *. intros d Hd. split.
      - simpl. specialize (Hl d Hd). specialize (Ht d Hd). unfold loaded_draw_order, time_ok in *.
        unfold default_values, exported, get_or_none in *. destruct (ver_ge ver SPINE_3_8); simpl in *.
        + destruct (is_none (do_time d)) eqn:En.
          { exfalso. apply Hl; [discriminate | ]. destruct (do_time d); auto; discriminate. }
          destruct (py_eq (do_time d) (VInt 0)) eqn:Eb; simpl; [right; exact Eb | left].
          destruct (do_time d); auto. discriminate.
        + specialize (Ht eq_refl). destruct (do_time d); simpl; try (left; reflexivity). congruence.
      - apply (objs_keep CDrawOffset). apply H2. auto. }
    split.
    { simpl. rewrite dmap_dmap. apply drel_self. eapply dall_impl; [ | exact H3]. intros t (B1 & B2 & B3 & B4).
      split; [apply (objs_keep CBoneRS); auto | ]. split; [apply (objs_keep CBoneTS); auto | ].
      split; [apply (objs_keep CBoneRS); auto | apply (objs_keep CBoneTS); auto]. }
    split.
    { simpl. rewrite dmap_dmap. apply drel_self. eapply dall_impl; [ | exact H4]. intros t (B1 & B2 & B3).
      split; [apply (objs_keep CSlotKeyframe); auto | ].
      split; [apply (objs_keep CSlotKeyframe); auto | apply (objs_keep CSlotKeyframe); auto]. }
    split; [apply (objs_keep CEventTimeline); auto | ].
    split; [apply (dobjs_keep CTransformTimeline); auto | ].
    split.
    { simpl. rewrite dmap_dmap. apply drel_self. eapply dall_impl; [ | exact H7]. intros d. apply dobjs_keep. }
    simpl. rewrite dmap_dmap. apply drel_self. eapply dall_impl; [ | exact H8]. intros d Hd. rewrite dmap_dmap.
    apply drel_self. eapply dall_impl; [ | exact Hd]. intros d'. apply dobjs_keep.
  Qed.
  Lemma skin_keep : forall s, skin_all (loaded_att ver) s -> loaded_skin s ->
    same_skin s (skin_defaults ver (skin_raw ver s)).
  Proof.
    intros s H [Hn Ha]. split.
    - simpl. destruct (sk_name s) as [n | ]; [ | congruence]. simpl. destruct (String.eqb_spec n ""); subst; auto.
    - unfold skin_all in H. simpl. destruct (sk_attachments s) as [a | ]; [ | congruence].
      assert (G : drel (drel same_obj) a (dmap (dmap (obj_set_defaults ver)) (dmap (dmap (raw ver)) a))).
      { rewrite dmap_dmap. apply drel_self. eapply dall_impl; [ | exact H]. intros d Hd. rewrite dmap_dmap.
        apply drel_self. eapply dall_impl; [ | exact Hd]. intros o [[Ho _] Hf]. apply (obj_keep (o_cls o)). split; auto. }
      destruct a; [constructor | exact G].
  Qed.
  Lemma data_keep : forall d, loaded_data ver d -> dall (fun a => Forall (time_ok ver) (an_drawOrder a)) (d_animations d) ->
    same_data d (reload_data ver d).
  Proof.
    intros d [(H1 & H2 & H3 & H4 & H5 & H6 & H7 & H8) [Hs Ha]] Ht.
    split; [apply (objs_keep CBone); auto | ]. split; [apply (objs_keep CSlot); auto | ].
    split.
    { simpl. rewrite map_map. apply Forall2_self. rewrite Forall_forall in *. intros s Hi. apply skin_keep; auto. }
    split.
    { simpl. rewrite dmap_dmap. apply drel_self. eapply dall_impl; [ | exact H4]. intros o. apply obj_keep. }
    split; [apply (objs_keep CIk); auto | ]. split; [apply (objs_keep CTransform); auto | ].
    split; [apply (objs_keep CPath); auto | ].
    simpl. rewrite dmap_dmap. apply drel_self. unfold dall in *. rewrite Forall_forall in *. intros [n a] Hi. simpl.
    apply animation_keep.
    - apply (H8 _ Hi).
    - apply (Ha _ Hi).
    - apply (Ht _ Hi).
  Qed.
End Keep.

Lemma reload_keeps : forall x y, loaded_data (doc_version x) (doc_data x) -> ver_ok x ->
  no_null_time (doc_data x) \/ ver_ge (doc_version x) SPINE_3_8 = true ->
  load_document (document_json x) = Ok y ->
  doc_skeleton y = doc_skeleton x /\ doc_version y = doc_version x /\ same_data (doc_data x) (doc_data y).
Proof.
  intros x y H Hv Ht Hy. rewrite (load_unique x y H Hv Hy). split; auto. split; auto.
  apply data_keep; auto. apply time_ok_any. auto.
Qed.

Lemma load_reloadable_iff : forall v x, load_document v = Ok x ->
  ((exists y, load_document (document_json x) = Ok y) <->
   d_bones (doc_data x) <> [] /\ d_slots (doc_data x) <> [] /\ no_null_required (doc_data x)).
Proof. intros. apply reloadable_iff; [eapply load_document_loaded; eauto | eapply load_ver_ok; eauto]. Qed.
Lemma load_reload_stable : forall v x y, load_document v = Ok x ->
  no_null_time (doc_data x) \/ ver_ge (doc_version x) SPINE_3_8 = true ->
  load_document (document_json x) = Ok y -> document_json y = document_json x.
Proof. intros. eapply reload_stable; eauto; [eapply load_document_loaded; eauto | eapply load_ver_ok; eauto]. Qed.
Lemma load_reload_keeps : forall v x y, load_document v = Ok x ->
  no_null_time (doc_data x) \/ ver_ge (doc_version x) SPINE_3_8 = true ->
  load_document (document_json x) = Ok y ->
  doc_skeleton y = doc_skeleton x /\ doc_version y = doc_version x /\ same_data (doc_data x) (doc_data y).
Proof. intros. eapply reload_keeps; eauto; [eapply load_document_loaded; eauto | eapply load_ver_ok; eauto]. Qed.
