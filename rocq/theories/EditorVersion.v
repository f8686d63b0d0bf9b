(** Proofs about loading a document under another version. *)
From Verif Require Import PyBase PyFacts Json Version Graph Classes ClassFacts DocFacts SpineGraph DrawOrder AnimData Editor SpecAnim SpecEditor EditorData EditorBuild.
Open Scope string_scope.

(** ** The graph depends on four keys only *)
Lemma create_same : forall d d', (forall k, In k ["bones"; "slots"; "ik"; "skins"] -> dget k d = dget k d') ->
  create_from_json_data (VDict d) = create_from_json_data (VDict d').
Proof.
  intros d d' H.
  assert (E : forall x, build_graph_m x = (fun b s i k =>
    do! bones := mlift (let! b := match b with Some v => Ok v | None => Err (EKey "bones") end in py_iter b) in
    do! _ := mforeach (fun x => add_bone_to_graph (snd x) (fst x)) (enumerate bones) in
    do! slots := mlift (match s with Some v => py_iter v | None => Ok [] end) in
    do! _ := mforeach (fun x => let '(idx, slot_data) := x in
       do! slot_id := add_slot_to_graph slot_data idx in
       do! skins := mlift (match k with Some v => Ok v | None => Err (EKey "skins") end) in
       do! skins' := mlift (py_iter skins) in
       do! slot_name := mlift (py_item slot_data "name") in
       do! _ := mforeach (add_skin_to_slot slot_id slot_name) skins' in
       mret tt) (enumerate slots) in
    do! iks := mlift (match i with Some v => py_iter v | None => Ok [] end) in
    do! _ := mforeach (fun x => add_ik_to_graph (snd x) (fst x)) (enumerate iks) in
    mret tt) (dget "bones" x) (dget "slots" x) (dget "ik" x) (dget "skins" x)) by reflexivity.
  unfold create_from_json_data. rewrite !E. rewrite !H by (cbn; tauto). reflexivity.
Qed.

(** ** Versions with the same defaults *)
Lemma defaults_same : forall v v' c, ver_ge v SPINE_3_8 = ver_ge v' SPINE_3_8 -> default_values c v = default_values c v'.
Proof. intros v v' c E. unfold default_values. rewrite E. auto. Qed.
Lemma data_defaults_same : forall v v' d, ver_ge v SPINE_3_8 = ver_ge v' SPINE_3_8 -> data_defaults v d = data_defaults v' d.
Proof.
  intros v v' d E.
  cbv delta [data_defaults animation_defaults skin_defaults draw_order_defaults bone_timeline_defaults slot_timeline_defaults obj_set_defaults default_values] beta. rewrite E. reflexivity.
Qed.
Lemma data_json_same : forall v v' d, ver_ge v SPINE_3_8 = ver_ge v' SPINE_3_8 -> data_json v d = data_json v' d.
Proof.
  intros v v' d E.
  cbv delta [data_json data_attrs skin_json animation_json draw_order_json bone_timeline_json slot_timeline_json obj_json export default_values] beta. rewrite E. reflexivity.
Qed.

Lemma ddel_dset : forall A k (v : A) d, ddel k (dset k v d) = ddel k d.
Proof.
  intros A k v d. unfold ddel. induction d as [ | [k' v'] d IH]; cbn [dset].
  - cbn [filter fst]. rewrite String.eqb_refl. reflexivity.
  - destruct (String.eqb k k') eqn:E; cbn [filter fst]; [rewrite E; auto | rewrite E; cbn [negb]; rewrite IH; auto].
Qed.
Lemma load_inv : forall j x, load_document j = Ok x ->
  exists d s y, j = VDict d /\ dget "skeleton" d = Some (VDict (doc_skeleton x)) /\ dget "spine" (doc_skeleton x) = Some (VStr s) /\
    mk_version s = Ok (doc_version x) /\ mk_data d = Ok y /\ doc_data x = data_defaults (doc_version x) y.
Proof.
  intros j x E. destruct j as [ | | | | | | d]; try discriminate. cbn [load_document] in E. unfold dget_err at 1 in E.
  destruct (dget "skeleton" d) as [sk | ] eqn:Es; [cbn [bind] in E | discriminate]. destruct sk as [ | | | | | | sk]; try discriminate. cbn [py_item] in E. unfold dget_err in E.
  destruct (dget "spine" sk) as [w | ] eqn:Ew; [cbn [bind] in E | discriminate]. destruct w; try discriminate.
  destruct (mk_version s) as [v | ] eqn:Ev; [cbn [bind] in E | discriminate]. destruct (mk_data d) as [y | ] eqn:Ey; [cbn [bind] in E | discriminate].
  injection E as <-. exists d, s, y. cbn. auto 10.
Qed.
Lemma load_spine : forall j x s v, load_document j = Ok x -> mk_version s = Ok v ->
  exists y, load_document (with_spine s j) = Ok (mkDoc (dset "spine" (VStr s) (doc_skeleton x)) v (data_defaults v y)) /\ doc_data x = data_defaults (doc_version x) y /\ data_all wf_obj wf_att y.
Proof.
  intros j x s v E V. apply load_inv in E as (d & s0 & y & -> & Es & Ep & Ev & Ey & Ed).
  exists y. split; [ | split; [auto | eapply mk_data_wf; eauto]]. cbn [with_spine]. rewrite Es. cbn [load_document]. unfold dget_err at 1. rewrite dget_dset, String.eqb_refl. cbn [bind py_item]. unfold dget_err.
  rewrite dget_dset, String.eqb_refl. cbn [bind]. rewrite V. cbn [bind].
  assert (E : mk_data (dset "skeleton" (VDict (dset "spine" (VStr s) (doc_skeleton x))) d) = mk_data d) by (unfold mk_data; rewrite ddel_dset; reflexivity).
  rewrite E, Ey. reflexivity.
Qed.
Lemma images_spine : forall sk s v v' d, ver_ge v SPINE_3_8 = true -> ver_ge v' SPINE_3_8 = true ->
  get_images_references (mkDoc (dset "spine" (VStr s) sk) v' d) = get_images_references (mkDoc sk v d).
Proof. intros sk s v v' d E E'. unfold get_images_references. cbn [doc_skeleton doc_version doc_data]. rewrite dget_dset. cbn [String.eqb Ascii.eqb Bool.eqb]. rewrite E, E'. reflexivity. Qed.

Theorem version_kept : forall j e s v, mk_editor j = Ok e -> ver_ge (e_ver e) SPINE_3_8 = true -> mk_version s = Ok v -> ver_ge v SPINE_3_8 = true ->
  mk_editor (with_spine s j) = Ok (mkEditor (mkDoc (dset "spine" (VStr s) (doc_skeleton (e_doc e))) v (e_data e)) (e_images e) (e_graph e)).
Proof.
  intros j e s v E Ve V Vv. apply mk_editor_inv in E as (E1 & E2 & E3). destruct (load_spine _ _ _ _ E1 V) as (y & L & Y & W).
  assert (G : ver_ge (e_ver e) SPINE_3_8 = ver_ge v SPINE_3_8) by congruence. unfold e_ver in *.
  assert (D : data_defaults v y = e_data e) by (unfold e_data; rewrite Y; symmetry; apply data_defaults_same; auto). rewrite D in L.
  unfold mk_editor. rewrite L. cbn [bind]. destruct e as [[sk0 v0 d0] im g]. cbn [e_doc e_data e_images e_graph doc_skeleton doc_version doc_data] in *.
  rewrite (images_spine sk0 s v0 v) by auto. unfold e_data. cbn [e_doc doc_data]. rewrite E2. cbn [bind].
  assert (C : create_from_json_data (document_json (mkDoc (dset "spine" (VStr s) sk0) v d0)) = create_from_json_data (document_json (mkDoc sk0 v0 d0))).
  { apply create_same. cbn [doc_skeleton doc_version doc_data]. intros k Hk. rewrite !dget_dset.
    assert (Hn : String.eqb k "skeleton" = false) by (destruct Hk as [<- | [<- | [<- | [<- | []]]]]; reflexivity). rewrite Hn, (data_json_same v v0) by auto. reflexivity. }
  rewrite C, E3. reflexivity.
Qed.
Lemma fold_images_none : forall x, ver_ge (doc_version x) SPINE_3_8 = false -> d_skins (doc_data x) <> [] -> exists w, get_images_references x = Err (EType w).
Proof. intros x V N. unfold get_images_references. destruct (d_skins (doc_data x)) as [ | s l]; [congruence | ]. cbn [foldM]. rewrite V. eexists. reflexivity. Qed.

(** Bones, slots and ik constraints have the same defaults in all versions. *)
Lemma stable_defaults : forall v v' c, In c [CBone; CSlot; CIk; CAnimData] -> default_values c v = default_values c v'.
Proof. intros v v' c H. unfold default_values. destruct H as [<- | [<- | [<- | [<- | []]]]]; destruct (ver_ge v SPINE_3_8), (ver_ge v' SPINE_3_8); reflexivity. Qed.
Theorem version_lost : forall j e s v, mk_editor j = Ok e -> mk_version s = Ok v -> ver_ge v SPINE_3_8 = false ->
  (d_skins (e_data e) <> [] -> exists w, mk_editor (with_spine s j) = Err (EType w)) /\
  (d_skins (e_data e) = [] -> exists e', mk_editor (with_spine s j) = Ok e' /\ e_graph e' = e_graph e /\ e_images e' = []).
Proof.
  intros j e s v E V Vv. apply mk_editor_inv in E as (E1 & E2 & E3). destruct (load_spine _ _ _ _ E1 V) as (y & L & Y & W). unfold mk_editor. rewrite L. cbn [bind].
  assert (Sk : length (d_skins (e_data e)) = length (d_skins (data_defaults v y))) by (unfold e_data; rewrite Y; cbn; rewrite !map_length; auto).
  split; intros Hs.
  - destruct (fold_images_none (mkDoc (dset "spine" (VStr s) (doc_skeleton (e_doc e))) v (data_defaults v y))) as [w ->]; [auto | | eexists; reflexivity].
    cbn [doc_data]. intros C. rewrite C in Sk. destruct (d_skins (e_data e)); [congruence | discriminate].
  - rewrite Hs in Sk. assert (Hs' : d_skins (data_defaults v y) = []) by (destruct (d_skins (data_defaults v y)); [auto | discriminate]).
    unfold get_images_references at 1. cbn [doc_data]. rewrite Hs'. cbn [foldM bind].
    assert (C : create_from_json_data (document_json (mkDoc (dset "spine" (VStr s) (doc_skeleton (e_doc e))) v (data_defaults v y))) = create_from_json_data (document_json (e_doc e))).
    { assert (B : forall c l, In c [CBone; CSlot; CIk] -> Forall (fun o => o_cls o = c) l ->
        map (obj_json v) (map (obj_set_defaults v) l) = map (obj_json (e_ver e)) (map (obj_set_defaults (e_ver e)) l)).
      { intros c l Hc Hl. rewrite !map_map. apply map_ext_in. intros o Ho. rewrite Forall_forall in Hl. specialize (Hl o Ho).
        assert (In (o_cls o) [CBone; CSlot; CIk; CAnimData]) by (rewrite Hl; destruct Hc as [<- | [<- | [<- | []]]]; cbn; tauto).
        unfold obj_json, obj_set_defaults. cbn [o_cls o_attrs]. rewrite (stable_defaults v (e_ver e)) by auto. reflexivity. }
      apply create_same. cbn [doc_skeleton doc_version doc_data]. intros k Hk. rewrite !dget_dset.
      assert (Hn : String.eqb k "skeleton" = false) by (destruct Hk as [<- | [<- | [<- | [<- | []]]]]; reflexivity). rewrite Hn.
      unfold data_json. rewrite (stable_defaults v (e_ver e)) by (cbn; tauto). fold (e_ver e). rewrite !dget_export by apply data_attrs_NoDup.
      assert (K : dget k (data_attrs v (data_defaults v y)) = dget k (data_attrs (e_ver e) (doc_data (e_doc e)))); [ | rewrite K; reflexivity].
      fold (e_ver e) in Y. unfold e_data in Hs. destruct W as (W1 & W2 & _ & _ & W3 & _).
      assert (Wc : forall c l, Forall (wf_obj c) l -> Forall (fun o => o_cls o = c) l) by (intros c l; apply Forall_impl; intros o (Hc & _); exact Hc).
      unfold data_attrs, jlist. destruct Hk as [<- | [<- | [<- | [<- | []]]]]; cbn [dget String.eqb Ascii.eqb Bool.eqb]; do 2 f_equal.
      + rewrite Y. cbn [data_defaults d_bones]. apply (B CBone); [cbn; tauto | auto].
      + rewrite Y. cbn [data_defaults d_slots]. apply (B CSlot); [cbn; tauto | auto].
      + rewrite Y. cbn [data_defaults d_ik]. apply (B CIk); [cbn; tauto | auto].
      + rewrite Hs, Hs'. reflexivity. }
    rewrite C, E3. eexists. split; [reflexivity | split; reflexivity].
Qed.
(** A document that loads as 3.8 or later loads with another version exactly if the version
    is one that the comparison with 3.8 accepts, or if there is no skin. *)
Theorem version_iff : forall j e s v, mk_editor j = Ok e -> ver_ge (e_ver e) SPINE_3_8 = true -> mk_version s = Ok v ->
  ((exists e', mk_editor (with_spine s j) = Ok e') <-> ver_ge v SPINE_3_8 = true \/ d_skins (e_data e) = []).
Proof.
  intros j e s v E Ve V. destruct (ver_ge v SPINE_3_8) eqn:Ev.
  - split; [auto | ]. intros _. eexists. eapply version_kept; eauto.
  - destruct (version_lost _ _ _ _ E V Ev) as [A B]. split.
    + intros [e' E']. right. destruct (d_skins (e_data e)) as [ | x l] eqn:Es; auto. destruct A as [w A]; [discriminate | congruence].
    + intros [C | C]; [discriminate | ]. destruct (B C) as (e' & E' & _). eauto.
Qed.
