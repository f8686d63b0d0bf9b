(** Properties C03, C06-C11 (element classes and documents). *)
From Verif Require Import PyBase PyNum Json Version SpecVersion Classes SpecDoc ClassFacts DocFacts ReloadFacts.
Open Scope string_scope.

(** ** C03: clean_unsupported_attributes -- false as stated *)
(** 3.7.94 is older than 3.8, yet c2 stays. *)
Definition kf_c2 : obj :=
  mkObj CSlotKeyframe [("name", VNone); ("time", VInt 0); ("curve", vlist); ("color", VNone); ("dark", VNone);
                       ("light", VNone); ("c2", VInt 1); ("c3", VNone); ("c4", VNone)].
Theorem C03_refuted : exists ver, mk_version "3.7.94" = Ok ver /\ release_lt ver SPINE_3_8 /\
  unsupported_old (o_cls kf_c2) = Some ["c2"; "c3"; "c4"] /\
  oget (obj_clean_unsupported ver kf_c2) "c2" = VInt 1.
Proof. exists (mkVersion 3 7 94). repeat split. right; left. repeat split. Qed.
Print Assumptions C03_refuted.

(** It never does anything for the versions that exist (patch numbers are not negative). *)
Theorem C03_never_cleans : forall ver d, (0 <= v_patch ver)%Z -> data_clean_unsupported ver d = d.
Proof. exact data_clean_noop. Qed.
Print Assumptions C03_never_cleans.

(** What holds: attributes that are not listed are never touched, and the listed ones are
    cleared when the code's own test [version < 3.8] is true.  Missing: that this test is
    true for every older version. *)
Theorem C03_clean_partial : forall ver o k,
  ((forall l, unsupported_old (o_cls o) = Some l -> ~ In k l) -> oget (obj_clean_unsupported ver o) k = oget o k) /\
  (forall l, ver_lt ver SPINE_3_8 = true -> unsupported_old (o_cls o) = Some l -> In k l ->
     oget (obj_clean_unsupported ver o) k = VNone).
Proof. exact clean_exact. Qed.
Print Assumptions C03_clean_partial.
Example C03_ex : oget (obj_clean_unsupported (mkVersion 2 7 (-1)) kf_c2) "c2" = VNone.
Proof. reflexivity. Qed.

(** ** C06: unknown attributes *)
(** The keys of [d] that class [c] does not know, in the order of [d]. *)
Theorem C06_unknown_refused : forall c d,
  filter (fun k => negb (smem k (attrs_of c))) (dkeys d) <> [] ->
  build_obj c (VDict d) = Err (EUnsupported (filter (fun k => negb (smem k (attrs_of c))) (dkeys d))).
Proof. exact build_obj_unknown. Qed.
Print Assumptions C06_unknown_refused.

Theorem C06_values_kept : forall c d o, build_obj c (VDict d) = Ok o ->
  o_cls o = c /\ dkeys (o_attrs o) = attrs_of c /\
  (forall k v, dget k d = Some v -> In k (attrs_of c) /\ oget o k = v) /\
  (forall k, dget k d = None -> oget o k = VNone).
Proof. exact build_obj_kept. Qed.
Print Assumptions C06_values_kept.

(** Elements that contain elements: each attribute is built from the value under its key. *)
Theorem C06_slot_timeline : forall d t, mk_slot_timeline (VDict d) = Ok t ->
  unknown CSlotTimeline d = [] /\
  list_of (mk_obj CSlotKeyframe) (dget "attachment" d) = Ok (st_attachment t) /\
  list_of (mk_obj CSlotKeyframe) (dget "color" d) = Ok (st_color t) /\
  list_of (mk_obj CSlotKeyframe) (dget "twoColor" d) = Ok (st_twoColor t).
Proof. exact slot_timeline_known. Qed.
Print Assumptions C06_slot_timeline.
Theorem C06_bone_timeline : forall d t, mk_bone_timeline (VDict d) = Ok t ->
  unknown CBoneTimeline d = [] /\
  list_of (mk_obj CBoneRS) (dget "rotate" d) = Ok (bt_rotate t) /\
  list_of (mk_obj CBoneTS) (dget "translate" d) = Ok (bt_translate t) /\
  list_of (mk_obj CBoneRS) (dget "scale" d) = Ok (bt_scale t) /\
  list_of (mk_obj CBoneTS) (dget "shear" d) = Ok (bt_shear t).
Proof. exact bone_timeline_known. Qed.
Print Assumptions C06_bone_timeline.
Theorem C06_draw_order : forall d t, mk_draw_order (VDict d) = Ok t ->
  unknown CDrawOrder d = [] /\
  do_time t = match dget "time" d with Some v => v | None => VInt 0 end /\
  list_of (mk_obj CDrawOffset) (dget "offsets" d) = Ok (do_offsets t).
Proof. exact draw_order_known. Qed.
Print Assumptions C06_draw_order.
Theorem C06_animation : forall d t, mk_animation (VDict d) = Ok t ->
  unknown CAnimation d = [] /\
  list_of mk_draw_order (dget "drawOrder" d) = Ok (an_drawOrder t) /\
  dict_of mk_bone_timeline (dget "bones" d) = Ok (an_bones t) /\
  dict_of mk_slot_timeline (dget "slots" d) = Ok (an_slots t) /\
  list_of (mk_obj CEventTimeline) (dget "events" d) = Ok (an_events t) /\
  dict_of (fun x => list_of (mk_obj CIkTimeline) (Some x)) (dget "ik" d) = Ok (an_ik t) /\
  dict_of (fun x => list_of (mk_obj CTransformTimeline) (Some x)) (dget "transform" d) = Ok (an_transform t) /\
  items_of (items_of (fun x => list_of (mk_obj CPathTimeline) (Some x)))
    (match dget "path" d with Some x => x | None => vdict end) = Ok (an_path t) /\
  items_of (items_of (items_of (fun x => list_of (mk_obj CDeform) (Some x))))
    (match dget "deform" d with Some x => x | None => vdict end) = Ok (an_deform t).
Proof. exact animation_known. Qed.
Print Assumptions C06_animation.
Theorem C06_skin : forall d s, mk_skin (VDict d) = Ok s ->
  unknown CSkin38 d = [] /\ sk_name s = val_str (get_or_none "name" d) /\
  match get_or_none "attachments" d with
  | VNone => sk_attachments s = None
  | a => exists m, mk_attachments a = Ok m /\ sk_attachments s = Some m
  end.
Proof. exact skin_known. Qed.
Print Assumptions C06_skin.
Theorem C06_document : forall d x, mk_data d = Ok x ->
  unknown CAnimData (ddel "skeleton" d) = [] /\
  (exists b s k, dget "bones" (ddel "skeleton" d) = Some b /\ dget "slots" (ddel "skeleton" d) = Some s /\
     dget "skins" (ddel "skeleton" d) = Some k /\
     list_of (mk_obj CBone) (Some b) = Ok (d_bones x) /\ list_of (mk_obj CSlot) (Some s) = Ok (d_slots x) /\
     list_of mk_skin (Some k) = Ok (d_skins x)) /\
  dict_of (mk_obj CEvents) (dget "events" (ddel "skeleton" d)) = Ok (d_events x) /\
  list_of (mk_obj CIk) (dget "ik" (ddel "skeleton" d)) = Ok (d_ik x) /\
  list_of (mk_obj CTransform) (dget "transform" (ddel "skeleton" d)) = Ok (d_transform x) /\
  list_of (mk_obj CPath) (dget "path" (ddel "skeleton" d)) = Ok (d_path x) /\
  dict_of mk_animation (dget "animations" (ddel "skeleton" d)) = Ok (d_animations x).
Proof. exact data_known. Qed.
Print Assumptions C06_document.

Example C06_ex_refused : build_obj CSlot (VDict [("name", VStr "s"); ("foo", VInt 1); ("bar", VInt 1)]) = Err (EUnsupported ["foo"; "bar"]).
Proof. reflexivity. Qed.
Example C06_ex_kept : exists o, build_obj CSlot (VDict [("bone", VStr "b"); ("name", VStr "s")]) = Ok o /\ oget o "bone" = VStr "b".
Proof. eexists. split; reflexivity. Qed.

(** ** C07: required attributes *)
Theorem C07_exact : forall c d, (forall k, In k (dkeys d) -> In k (attrs_of c)) ->
  (forall o, build_obj c (VDict d) = Ok o -> forall k, In k (required c) -> In k (dkeys d)) /\
  ((forall k, In k (required c) -> In k (dkeys d)) -> exists o, build_obj c (VDict d) = Ok o) /\
  (filter (fun k => negb (smem k (dkeys d))) (required c) <> [] ->
   build_obj c (VDict d) = Err (ERequired (filter (fun k => negb (smem k (dkeys d))) (required c)))).
Proof. exact build_obj_required. Qed.
Print Assumptions C07_exact.
Theorem C07_never_without : forall c d o, build_obj c (VDict d) = Ok o ->
  forall k, In k (required c) -> In k (dkeys d).
Proof. exact build_obj_required_present. Qed.
Print Assumptions C07_never_without.
Example C07_ex : build_obj CSlot (VDict [("color", VNone)]) = Err (ERequired ["name"; "bone"]).
Proof. reflexivity. Qed.
Example C07_ex_ok : exists o, build_obj CBone (VDict [("name", VStr "b")]) = Ok o.
Proof. eexists. reflexivity. Qed.

(** ** C08: the export writes exactly the non-default attributes *)
(** False for one attribute: a slot keyframe without name exports ["name": null] although
    null is the default. *)
Theorem C08_refuted : exists o, wf_obj CSlotKeyframe o /\ oget o "name" = VNone /\
  py_eq (oget o "name") (get_or_none "name" (default_values CSlotKeyframe SPINE_3_8)) = true /\
  exists d, obj_json SPINE_3_8 o = VDict d /\ dget "name" d = Some VNone.
Proof.
  exists kf_c2. split; [repeat split | ]. split; [reflexivity | ]. split; [reflexivity | ]. eexists. split; reflexivity.
Qed.
Print Assumptions C08_refuted.

(** Exact characterisation, including that exception. *)
Theorem C08_export_exact : forall ver c o k v, wf_obj c o ->
  exists d, obj_json ver o = VDict d /\
    (dget k d = Some v <->
     In k (attrs_of c) /\ oget o k = v /\
     ((v <> VNone /\ py_eq v (get_or_none k (default_values c ver)) = false) \/
      (v = VNone /\ c = CSlotKeyframe /\ k = "name"))).
Proof. exact obj_json_exact. Qed.
Print Assumptions C08_export_exact.
(** Elements with nested elements are exported by the same rule from the exported values
    of their attributes. *)
Theorem C08_nested : forall ver c attrs k v, dkeys attrs = attrs_of c -> c <> CSlotKeyframe ->
  (dget k (export_attrs (default_values c ver) attrs) = Some v <->
   dget k attrs = Some v /\ v <> VNone /\ py_eq v (get_or_none k (default_values c ver)) = false).
Proof. exact export_nested_exact. Qed.
Print Assumptions C08_nested.
Example C08_ex : obj_json SPINE_3_8 kf_c2 = VDict [("name", VNone); ("c2", VInt 1)].
Proof. reflexivity. Qed.

(** ** C09: export, reload, export *)
Definition doc (bones slots anims : val) (spine : string) : val :=
  VDict [("skeleton", VDict [("spine", VStr spine)]); ("bones", bones); ("slots", slots); ("skins", vlist);
         ("animations", anims)].
Definition root : val := VList [VDict [("name", VStr "root")]].
Definition slot1 : val := VList [VDict [("name", VStr "s"); ("bone", VStr "root")]].
Definition dorder (d : val) : val := VDict [("a", VDict [("drawOrder", VList [d])])].

(** An export may be unreadable: no bones, or a null required attribute. *)
Theorem C09_reload_refuted :
  (exists x, load_document (doc vlist slot1 vdict "3.8") = Ok x /\
             load_document (document_json x) = Err (EKey "bones")) /\
  (exists x, load_document (doc root slot1 (dorder (VDict [("offsets", VList [VDict [("slot", VStr "s"); ("offset", VNone)]])])) "3.8") = Ok x /\
             load_document (document_json x) = Err (ERequired ["offset"])).
Proof. split; (eexists; split; [vm_compute; reflexivity | vm_compute; reflexivity]). Qed.
Print Assumptions C09_reload_refuted.
(** A second export may differ: for versions whose table has no default time. *)
Theorem C09_stable_refuted :
  exists x y, load_document (doc root slot1 (dorder (VDict [("time", VNone)])) "3.7.1") = Ok x /\
    load_document (document_json x) = Ok y /\ document_json y <> document_json x.
Proof. do 2 eexists. split; [vm_compute; reflexivity | split; [vm_compute; reflexivity | vm_compute; discriminate]]. Qed.
Print Assumptions C09_stable_refuted.

(** Exactly when an export can be read back. *)
Theorem C09_reload_exact : forall v x, load_document v = Ok x ->
  ((exists y, load_document (document_json x) = Ok y) <->
   d_bones (doc_data x) <> [] /\ d_slots (doc_data x) <> [] /\ no_null_required (doc_data x)).
Proof. exact load_reloadable_iff. Qed.
Print Assumptions C09_reload_exact.
(** Missing: the cases excluded by the hypotheses (refuted above). *)
Theorem C09_export_stable_partial : forall v x y, load_document v = Ok x ->
  no_null_time (doc_data x) \/ ver_ge (doc_version x) SPINE_3_8 = true ->
  load_document (document_json x) = Ok y -> document_json y = document_json x.
Proof. exact load_reload_stable. Qed.
Print Assumptions C09_export_stable_partial.

Definition ex_doc : val :=
  doc root slot1 (dorder (VDict [("time", VInt 2); ("offsets", VList [VDict [("slot", VStr "s"); ("offset", VInt 1)]])])) "3.8.1".
Example C09_ex : exists x y, load_document ex_doc = Ok x /\ d_bones (doc_data x) <> [] /\ d_slots (doc_data x) <> [] /\
  no_null_time (doc_data x) /\ load_document (document_json x) = Ok y /\ document_json y = document_json x.
Proof.
  do 2 eexists. split; [vm_compute; reflexivity | ]. split; [discriminate | ]. split; [discriminate | ].
  split; [ | split; [vm_compute; reflexivity | vm_compute; reflexivity]].
  intros n a dr [H | []] Hd. inversion H; subst. destruct Hd as [<- | []]. discriminate.
Qed.

(** ** C10: reload keeps every value *)
Theorem C10_reload_keeps_partial : forall v x y, load_document v = Ok x ->
  no_null_time (doc_data x) \/ ver_ge (doc_version x) SPINE_3_8 = true ->
  load_document (document_json x) = Ok y ->
  doc_skeleton y = doc_skeleton x /\ doc_version y = doc_version x /\ same_data (doc_data x) (doc_data y).
Proof. exact load_reload_keeps. Qed.
Print Assumptions C10_reload_keeps_partial.
(** The excluded case: a null draw order time of an old document becomes 0. *)
Theorem C10_refuted :
  exists x y, load_document (doc root slot1 (dorder (VDict [("time", VNone)])) "3.7.1") = Ok x /\
    load_document (document_json x) = Ok y /\ ~ same_data (doc_data x) (doc_data y).
Proof.
  do 2 eexists. split; [vm_compute; reflexivity | split; [vm_compute; reflexivity | ]].
  intros (_ & _ & _ & _ & _ & _ & _ & H). inversion H; subst. destruct H3 as [_ (_ & H3 & _)]. simpl in H3.
  inversion H3; subst. match goal with D : same_draw_order _ _ |- _ => destruct D as [[E | E] _]; discriminate end.
Qed.
Print Assumptions C10_refuted.
(** For one element, in every version: *)
Theorem C10_element : forall ver c v o o', mk_obj c v = Ok o ->
  mk_obj c (obj_json ver (obj_set_defaults ver o)) = Ok o' ->
  obj_json ver (obj_set_defaults ver o') = obj_json ver (obj_set_defaults ver o) /\
  forall k, In k (attrs_of c) ->
    let x := oget (obj_set_defaults ver o) k in let y := oget (obj_set_defaults ver o') k in x = y \/ py_eq x y = true.
Proof. exact element_reload. Qed.
Print Assumptions C10_element.

Example C10_ex : exists o o', mk_obj CBone (VDict [("name", VStr "b"); ("scaleX", VInt 1); ("x", VInt 2)]) = Ok o /\
  mk_obj CBone (obj_json SPINE_3_8 (obj_set_defaults SPINE_3_8 o)) = Ok o' /\ oget o' "scaleX" = VNone /\ oget o' "x" = VInt 2.
Proof. do 2 eexists. repeat split. Qed.

(** ** C11: attachment types *)
Theorem C11_refuted : forall d,
  (forall t, In t ["point"; "clipping"; "boundingbox"] -> dget "type" d = Some (VStr t) ->
     exists l, mk_attachment (VDict d) = Err (EUnsupported l) /\ In "type" l) /\
  (dget "type" d = Some (VStr "region") ->
     mk_attachment (VDict d) = Err (EValue "wrong skin attachment type")).
Proof. exact attachment_never. Qed.
Print Assumptions C11_refuted.
(** Mesh, path, linked mesh and untyped attachments load, with all their values.  Missing:
    the four types above. *)
Theorem C11_loads_partial : forall d t c,
  In (t, c) [(VStr "mesh", CSkinMesh); (VStr "path", CSkinPath); (VStr "linkedmesh", CSkinLinkedMesh); (VNone, CSkinAttachment)] ->
  get_or_none "type" d = t ->
  (forall k, In k (dkeys d) -> In k (attrs_of c)) ->
  (forall k, In k ["name"; "path"; "skin"] -> is_str_or_null (get_or_none k d) = true) ->
  exists o, mk_attachment (VDict d) = Ok o /\ o_cls o = c /\
    (forall k, In k (attrs_of c) -> oget o k = get_or_none k d).
Proof. exact attachment_loads. Qed.
Print Assumptions C11_loads_partial.
Example C11_ex : exists o, mk_attachment (VDict [("type", VStr "mesh"); ("path", VStr "p")]) = Ok o /\ o_cls o = CSkinMesh.
Proof. eexists. split; reflexivity. Qed.
Example C11_ex_refused : dget "type" [("type", VStr "point"); ("x", VInt 1)] = Some (VStr "point").
Proof. reflexivity. Qed.
