(** Proofs about documents with nested elements (Classes.v): what a loaded document
    looks like, and reading back an exported document. *)
From Verif Require Import PyBase PyNum Json Version PyFacts VersionFacts Classes ClassFacts.
Open Scope string_scope.

Definition dall {A} (Q : A -> Prop) (d : dict A) : Prop := Forall (fun kv => Q (snd kv)) d.

Lemma dall_impl : forall A (P Q : A -> Prop) d, (forall x, P x -> Q x) -> dall P d -> dall Q d.
Proof. intros A P Q d H Hd. eapply Forall_impl; [ | exact Hd]. simpl. auto. Qed.
Lemma dall_dmap : forall A B (f : A -> B) (Q : B -> Prop) d, dall Q (dmap f d) <-> dall (fun x => Q (f x)) d.
Proof. intros. unfold dall, dmap. rewrite Forall_map. tauto. Qed.
Lemma dall_in : forall A (Q : A -> Prop) d k v, dall Q d -> In (k, v) d -> Q v.
Proof. intros A Q d k v H Hi. unfold dall in H. rewrite Forall_forall in H. apply (H _ Hi). Qed.
Lemma dall_get : forall A (Q : A -> Prop) d k v, dall Q d -> dget k d = Some v -> Q v.
Proof. intros. apply dget_some_in in H0. eapply dall_in; eauto. Qed.
Lemma dall_and : forall A (P Q : A -> Prop) d, dall P d /\ dall Q d <-> dall (fun x => P x /\ Q x) d.
Proof. intros. unfold dall. rewrite !Forall_forall. firstorder. Qed.
Lemma dmapM_all : forall A B (f : A -> res B) (Q : B -> Prop) d r,
  dmapM f d = Ok r -> (forall k x y, In (k, x) d -> f x = Ok y -> Q y) -> dall Q r.
Proof.
  intros A B f Q d r H HQ. apply dmapM_ok in H. induction H as [ | [k x] [k' y] d r [E1 E2] H IH]; constructor.
  - simpl in *. eapply HQ; [left; reflexivity | eauto].
  - apply IH. intros. eapply HQ; [right; eauto | eauto].
Qed.
Lemma mapM_all : forall A B (f : A -> res B) (Q : B -> Prop) l r,
  mapM f l = Ok r -> (forall x y, In x l -> f x = Ok y -> Q y) -> Forall Q r.
Proof.
  intros A B f Q l r H HQ. apply mapM_ok in H. induction H; constructor.
  - eapply HQ; [left; reflexivity | eauto].
  - apply IHForall2. intros. eapply HQ; [right; eauto | eauto].
Qed.
Lemma list_of_all : forall A (f : val -> res A) (Q : A -> Prop) v r,
  list_of f v = Ok r -> (forall x y, f x = Ok y -> Q y) -> Forall Q r.
Proof.
  intros A f Q [v | ] r H HQ; simpl in H.
  - inv_bind H. eapply mapM_all; eauto.
  - inversion H. constructor.
Qed.
Lemma dict_of_all : forall A (f : val -> res A) (Q : A -> Prop) v r,
  dict_of f v = Ok r -> (forall x y, f x = Ok y -> Q y) -> dall Q r.
Proof.
  intros A f Q v r H HQ. destruct v as [[ | | | | s | l | d] | ]; simpl in H; try discriminate.
  - destruct s; [inversion H; constructor | discriminate].
  - destruct l; [inversion H; constructor | destruct (by_elements_not _ _ _ _ H)].
  - eapply dmapM_all; eauto.
  - inversion H. constructor.
Qed.
Lemma items_of_all : forall A (f : val -> res A) (Q : A -> Prop) v r,
  items_of f v = Ok r -> (forall x y, f x = Ok y -> Q y) -> dall Q r.
Proof. intros A f Q v r H HQ. unfold items_of in H. inv_bind H. eapply dmapM_all; eauto. Qed.

(** ** A predicate on every element of the data.  [P c o]: [o] stands where an element of
    class [c] is expected; [PA]: an attachment of a skin. *)
Section All.
  Variable P : cls -> obj -> Prop.
  Variable PA : obj -> Prop.
  Definition slot_timeline_all (t : slot_timeline) : Prop :=
    Forall (P CSlotKeyframe) (st_attachment t) /\ Forall (P CSlotKeyframe) (st_color t) /\
    Forall (P CSlotKeyframe) (st_twoColor t).
  Definition bone_timeline_all (t : bone_timeline) : Prop :=
    Forall (P CBoneRS) (bt_rotate t) /\ Forall (P CBoneTS) (bt_translate t) /\
    Forall (P CBoneRS) (bt_scale t) /\ Forall (P CBoneTS) (bt_shear t).
  Definition draw_order_all (d : draw_order) : Prop := Forall (P CDrawOffset) (do_offsets d).
  Definition animation_all (a : animation) : Prop :=
    dall (Forall (P CIkTimeline)) (an_ik a) /\ Forall draw_order_all (an_drawOrder a) /\
    dall bone_timeline_all (an_bones a) /\ dall slot_timeline_all (an_slots a) /\
    Forall (P CEventTimeline) (an_events a) /\ dall (Forall (P CTransformTimeline)) (an_transform a) /\
    dall (dall (Forall (P CPathTimeline))) (an_path a) /\
    dall (dall (dall (Forall (P CDeform)))) (an_deform a).
  Definition skin_all (s : skin) : Prop :=
    match sk_attachments s with Some a => dall (dall PA) a | None => True end.
  Definition data_all (d : anim_data) : Prop :=
    Forall (P CBone) (d_bones d) /\ Forall (P CSlot) (d_slots d) /\ Forall skin_all (d_skins d) /\
    dall (P CEvents) (d_events d) /\ Forall (P CIk) (d_ik d) /\ Forall (P CTransform) (d_transform d) /\
    Forall (P CPath) (d_path d) /\ dall animation_all (d_animations d).
End All.

Section AllImpl.
  Variables (P Q : cls -> obj -> Prop) (PA QA : obj -> Prop).
  Hypothesis HP : forall c o, P c o -> Q c o.
  Hypothesis HA : forall o, PA o -> QA o.
  Lemma Forall_P : forall c l, Forall (P c) l -> Forall (Q c) l.
  Proof. intros. eapply Forall_impl; [ | eassumption]. auto. Qed.
  Lemma slot_timeline_all_impl : forall t, slot_timeline_all P t -> slot_timeline_all Q t.
  Proof. intros t [H1 [H2 H3]]. repeat split; apply Forall_P; auto. Qed.
  Lemma bone_timeline_all_impl : forall t, bone_timeline_all P t -> bone_timeline_all Q t.
  Proof. intros t [H1 [H2 [H3 H4]]]. repeat split; apply Forall_P; auto. Qed.
  Lemma animation_all_impl : forall a, animation_all P a -> animation_all Q a.
  Proof.
    intros a (H1 & H2 & H3 & H4 & H5 & H6 & H7 & H8). repeat split.
    - eapply dall_impl; [ | exact H1]. apply Forall_P.
    - eapply Forall_impl; [ | exact H2]. intros d. apply Forall_P.
    - eapply dall_impl; [ | exact H3]. apply bone_timeline_all_impl.
    - eapply dall_impl; [ | exact H4]. apply slot_timeline_all_impl.
    - apply Forall_P. auto.
    - eapply dall_impl; [ | exact H6]. apply Forall_P.
    - eapply dall_impl; [ | exact H7]. intros x. apply dall_impl. apply Forall_P.
    - eapply dall_impl; [ | exact H8]. intros x. apply dall_impl. intros y. apply dall_impl. apply Forall_P.
  Qed.
  Lemma skin_all_impl : forall s, skin_all PA s -> skin_all QA s.
  Proof.
    intros s. unfold skin_all. destruct (sk_attachments s); auto. apply dall_impl. intros x. apply dall_impl. auto.
  Qed.
  Lemma data_all_impl : forall d, data_all P PA d -> data_all Q QA d.
  Proof.
    intros d (H1 & H2 & H3 & H4 & H5 & H6 & H7 & H8). repeat split; try (apply Forall_P; auto; fail).
    - eapply Forall_impl; [ | exact H3]. apply skin_all_impl.
    - eapply dall_impl; [ | exact H4]. apply HP.
    - eapply dall_impl; [ | exact H8]. apply animation_all_impl.
  Qed.
End AllImpl.

(** ** What loading gives *)
Definition wf_att (o : obj) : Prop :=
  wf_obj (o_cls o) o /\ attachment_class (oget o "type") = Ok (o_cls o).

Lemma attachment_class_mk : forall c d o,
  attachment_class (get_or_none "type" d) = Ok c -> mk_obj c (VDict d) = Ok o -> wf_att o.
Proof.
  intros c d o Hc Ho. pose proof (mk_obj_wf _ _ _ Ho) as Hw.
  apply mk_obj_inv in Ho as [Ho _]. apply build_obj_kept in Ho as [Ec [_ [Hk1 Hk2]]].
  split; [rewrite Ec; auto | ]. rewrite Ec. unfold get_or_none in Hc.
  destruct (dget "type" d) as [v | ] eqn:E.
  - destruct (Hk1 _ _ E) as [_ Hv]. rewrite Hv. auto.
  - rewrite (Hk2 _ E). auto.
Qed.

Lemma mk_attachments_wf : forall v a, mk_attachments v = Ok a -> dall (dall wf_att) a.
Proof.
  intros v a H. apply attachments_of_ok in H as (d & -> & H).
  eapply dmapM_all; [exact H | ]. intros k x y _ Hx. apply attachments_of_ok in Hx as (d' & -> & Hx).
  eapply dmapM_all; [exact Hx | ]. intros k' x' y' _ Ho. unfold mk_attachment in Ho.
  inv_bind Ho. inv_bind Ho. destruct x'; try discriminate. simpl in E. inversion E; subst.
  eapply attachment_class_mk; eauto.
Qed.

Lemma list_of_wf : forall c v r, list_of (mk_obj c) v = Ok r -> Forall (wf_obj c) r.
Proof. intros c v r H. eapply list_of_all; [exact H | ]. intros. eapply mk_obj_wf; eauto. Qed.
Lemma mk_slot_timeline_wf : forall v t, mk_slot_timeline v = Ok t -> slot_timeline_all wf_obj t.
Proof.
  intros v t H. unfold mk_slot_timeline in H. repeat (inv_bind H). inversion H; subst.
  repeat split; eapply list_of_all; eauto using mk_obj_wf.
Qed.
Lemma mk_bone_timeline_wf : forall v t, mk_bone_timeline v = Ok t -> bone_timeline_all wf_obj t.
Proof.
  intros v t H. unfold mk_bone_timeline in H. repeat (inv_bind H). inversion H; subst.
  repeat split; eapply list_of_all; eauto using mk_obj_wf.
Qed.
Lemma mk_draw_order_wf : forall v t, mk_draw_order v = Ok t -> draw_order_all wf_obj t.
Proof.
  intros v t H. unfold mk_draw_order in H. repeat (inv_bind H). inversion H; subst.
  eapply list_of_all; eauto using mk_obj_wf.
Qed.
Lemma mk_animation_wf : forall v t, mk_animation v = Ok t -> animation_all wf_obj t.
Proof.
  intros v t H. unfold mk_animation in H. repeat (inv_bind H). inversion H; subst. repeat split; simpl.
  - eapply dict_of_all; [eassumption | ]. intros ? ? Hx. eapply list_of_wf. exact Hx.
  - eapply list_of_all; eauto using mk_draw_order_wf.
  - eapply dict_of_all; eauto using mk_bone_timeline_wf.
  - eapply dict_of_all; eauto using mk_slot_timeline_wf.
  - eapply list_of_all; eauto using mk_obj_wf.
  - eapply dict_of_all; [eassumption | ]. intros ? ? Hx. eapply list_of_wf. exact Hx.
  - eapply items_of_all; [eassumption | ]. intros ? ? Hx. eapply items_of_all; [exact Hx | clear Hx].
    intros ? ? Hx. eapply list_of_wf. exact Hx.
  - eapply items_of_all; [eassumption | ]. intros ? ? Hx. eapply items_of_all; [exact Hx | clear Hx].
    intros ? ? Hx. eapply items_of_all; [exact Hx | clear Hx]. intros ? ? Hx. eapply list_of_wf. exact Hx.
Qed.
Lemma mk_skin_wf : forall v s, mk_skin v = Ok s -> skin_all wf_att s.
Proof.
  intros v s H. unfold mk_skin in H. repeat (inv_bind H).
  destruct (is_str_or_null _); [ | discriminate]. inversion H; subst. unfold skin_all. simpl.
  destruct (get_or_none "attachments" x); try (inversion E1; exact I);
    inv_bind E1; inversion E1; subst; eapply mk_attachments_wf; eauto.
Qed.
Lemma mk_data_wf : forall d x, mk_data d = Ok x -> data_all wf_obj wf_att x.
Proof.
  intros d x H. unfold mk_data in H. repeat (inv_bind H). inversion H; subst. repeat split; simpl.
  - inv_bind E. eapply list_of_all; eauto using mk_obj_wf.
  - inv_bind E0. eapply list_of_all; eauto using mk_obj_wf.
  - inv_bind E1. eapply list_of_all; eauto using mk_skin_wf.
  - eapply dict_of_all; eauto using mk_obj_wf.
  - eapply list_of_all; eauto using mk_obj_wf.
  - eapply list_of_all; eauto using mk_obj_wf.
  - eapply list_of_all; eauto using mk_obj_wf.
  - eapply dict_of_all; eauto using mk_animation_wf.
Qed.

(** *** after the defaults *)
Section DefaultsAll.
  Variable ver : version.
  Variables (P Q : cls -> obj -> Prop) (PA QA : obj -> Prop).
  Hypothesis HP : forall c o, P c o -> Q c (obj_set_defaults ver o).
  Hypothesis HA : forall o, PA o -> QA (obj_set_defaults ver o).
  Lemma Forall_sd : forall c l, Forall (P c) l -> Forall (Q c) (map (obj_set_defaults ver) l).
  Proof. intros. apply Forall_map. eapply Forall_impl; [ | eassumption]. simpl. auto. Qed.
  Lemma slot_timeline_all_sd : forall t, slot_timeline_all P t -> slot_timeline_all Q (slot_timeline_defaults ver t).
  Proof. intros t [H1 [H2 H3]]. repeat split; apply Forall_sd; auto. Qed.
  Lemma bone_timeline_all_sd : forall t, bone_timeline_all P t -> bone_timeline_all Q (bone_timeline_defaults ver t).
  Proof. intros t [H1 [H2 [H3 H4]]]. repeat split; apply Forall_sd; auto. Qed.
  Lemma animation_all_sd : forall a, animation_all P a -> animation_all Q (animation_defaults ver a).
  Proof.
    intros a (H1 & H2 & H3 & H4 & H5 & H6 & H7 & H8). repeat split; simpl.
    - apply dall_dmap. eapply dall_impl; [ | exact H1]. apply Forall_sd.
    - apply Forall_map. eapply Forall_impl; [ | exact H2]. intros d. apply Forall_sd.
    - apply dall_dmap. eapply dall_impl; [ | exact H3]. apply bone_timeline_all_sd.
    - apply dall_dmap. eapply dall_impl; [ | exact H4]. apply slot_timeline_all_sd.
    - apply Forall_sd. auto.
    - apply dall_dmap. eapply dall_impl; [ | exact H6]. apply Forall_sd.
    - apply dall_dmap. eapply dall_impl; [ | exact H7]. intros x Hx. apply dall_dmap.
      eapply dall_impl; [ | exact Hx]. apply Forall_sd.
    - apply dall_dmap. eapply dall_impl; [ | exact H8]. intros x Hx. apply dall_dmap.
      eapply dall_impl; [ | exact Hx]. intros y Hy. apply dall_dmap.
      eapply dall_impl; [ | exact Hy]. apply Forall_sd.
  Qed.
  Lemma skin_all_sd : forall s, skin_all PA s -> skin_all QA (skin_defaults ver s).
  Proof.
    intros s. unfold skin_all, skin_defaults. simpl. destruct (sk_attachments s).
    - intros H. apply dall_dmap. eapply dall_impl; [ | exact H]. intros x Hx. apply dall_dmap.
      eapply dall_impl; [ | exact Hx]. auto.
    - constructor.
  Qed.
  Lemma data_all_sd : forall d, data_all P PA d -> data_all Q QA (data_defaults ver d).
  Proof.
    intros d (H1 & H2 & H3 & H4 & H5 & H6 & H7 & H8). repeat split; simpl; try (apply Forall_sd; auto; fail).
    - apply Forall_map. eapply Forall_impl; [ | exact H3]. apply skin_all_sd.
    - apply dall_dmap. eapply dall_impl; [ | exact H4]. apply HP.
    - apply dall_dmap. eapply dall_impl; [ | exact H8]. apply animation_all_sd.
  Qed.
End DefaultsAll.

Lemma type_no_default : forall c ver, dget "type" (default_values c ver) = None.
Proof. intros. unfold default_values. destruct (ver_ge ver SPINE_3_8), c; reflexivity. Qed.

Lemma wf_att_defaults : forall ver o, wf_att o -> wf_att (obj_set_defaults ver o).
Proof.
  intros ver o [H1 H2]. split.
  - change (o_cls (obj_set_defaults ver o)) with (o_cls o). apply type_guard_defaults. auto.
  - change (o_cls (obj_set_defaults ver o)) with (o_cls o). rewrite <- H2. f_equal.
    destruct (in_dec string_dec "type" (dkeys (o_attrs o))) as [Hi | Hi].
    + rewrite oget_set_defaults by auto. unfold fill1. rewrite type_no_default. destruct (oget o "type"); auto.
    + unfold oget. simpl. assert (E : dget "type" (o_attrs o) = None) by (apply dget_none; auto).
      rewrite dget_fill, E. auto.
Qed.

(** Elements of a loaded document: of the right class, with all attributes and with
    the defaults filled in. *)
Definition loaded_obj (ver : version) (c : cls) (o : obj) : Prop := wf_obj c o /\ filled ver o.
Definition loaded_att (ver : version) (o : obj) : Prop := wf_att o /\ filled ver o.
Definition loaded_skin (s : skin) : Prop := sk_name s <> None /\ sk_attachments s <> None.
Definition loaded_draw_order (ver : version) (d : draw_order) : Prop :=
  dget "time" (default_values CDrawOrder ver) <> None -> do_time d <> VNone.
Definition loaded_anim (ver : version) (a : animation) : Prop := Forall (loaded_draw_order ver) (an_drawOrder a).
Definition loaded_data (ver : version) (d : anim_data) : Prop :=
  data_all (loaded_obj ver) (loaded_att ver) d /\ Forall loaded_skin (d_skins d) /\
  dall (loaded_anim ver) (d_animations d).

Lemma data_defaults_loaded : forall ver d, data_all wf_obj wf_att d -> loaded_data ver (data_defaults ver d).
Proof.
  intros ver d H. split; [ | split].
  - eapply data_all_sd; [ | | exact H].
    + intros c o Ho. split; [apply type_guard_defaults; auto | eapply filled_defaults; eauto].
    + intros o Ho. split; [apply wf_att_defaults; auto | eapply filled_defaults; apply Ho].
  - simpl. apply Forall_map, Forall_forall. intros s _. split; simpl; [ | ].
    + destruct (sk_name s); discriminate.
    + destruct (sk_attachments s); discriminate.
  - simpl. apply dall_dmap. apply Forall_forall. intros [k a] _. simpl. unfold loaded_anim. simpl.
    apply Forall_map, Forall_forall. intros x _. unfold loaded_draw_order, draw_order_defaults. simpl.
    intros Hn. destruct (do_time x); try discriminate.
    unfold default_values in *. destruct (ver_ge ver SPINE_3_8); simpl in *; [discriminate | congruence].
Qed.

Lemma load_document_inv : forall v x, load_document v = Ok x ->
  exists d sk s y, v = VDict d /\ dget "skeleton" d = Some (VDict sk) /\ dget "spine" sk = Some (VStr s) /\
    mk_version s = Ok (doc_version x) /\ mk_data d = Ok y /\ doc_skeleton x = sk /\
    doc_data x = data_defaults (doc_version x) y.
Proof.
  intros v x H. destruct v as [ | | | | | | d]; simpl in H; try discriminate.
  inv_bind H. inv_bind H. destruct x1; try discriminate. inv_bind H. inv_bind H.
  destruct x0; try discriminate. inversion H; subst. simpl.
  unfold dget_err in E. destruct (dget "skeleton" d) eqn:E'; inversion E; subst.
  simpl in E0. unfold dget_err in E0. destruct (dget "spine" d0) eqn:E0'; inversion E0; subst.
  exists d, d0, s, x2. repeat split; auto.
Qed.
Lemma load_document_loaded : forall v x, load_document v = Ok x -> loaded_data (doc_version x) (doc_data x).
Proof.
  intros v x H. apply load_document_inv in H as (d & sk & s & y & _ & _ & _ & _ & Hd & _ & ->).
  apply data_defaults_loaded. eapply mk_data_wf; eauto.
Qed.

(** ** Unknown attributes of elements with nested elements (C06) *)
Lemma check_keys_ok : forall c d, check_keys (attrs_of c) (required c) d = Ok tt -> unknown c d = [] /\ missing c d = [].
Proof.
  intros c d. rewrite check_keys_spec. destruct (unknown c d); [ | discriminate].
  destruct (missing c d); [auto | discriminate].
Qed.
Ltac use_check := match goal with E : check_keys (attrs_of ?c) _ _ = Ok ?u |- _ => destruct u; apply check_keys_ok in E as [? ?] end.

Lemma slot_timeline_known : forall d t, mk_slot_timeline (VDict d) = Ok t ->
  unknown CSlotTimeline d = [] /\
  list_of (mk_obj CSlotKeyframe) (dget "attachment" d) = Ok (st_attachment t) /\
  list_of (mk_obj CSlotKeyframe) (dget "color" d) = Ok (st_color t) /\
  list_of (mk_obj CSlotKeyframe) (dget "twoColor" d) = Ok (st_twoColor t).
Proof.
  intros d t H. unfold mk_slot_timeline in H. rewrite obj_values_dict in H. cbn [bind] in H.
  repeat (inv_bind H). inversion H; subst. use_check. auto.
Qed.
Lemma bone_timeline_known : forall d t, mk_bone_timeline (VDict d) = Ok t ->
  unknown CBoneTimeline d = [] /\
  list_of (mk_obj CBoneRS) (dget "rotate" d) = Ok (bt_rotate t) /\
  list_of (mk_obj CBoneTS) (dget "translate" d) = Ok (bt_translate t) /\
  list_of (mk_obj CBoneRS) (dget "scale" d) = Ok (bt_scale t) /\
  list_of (mk_obj CBoneTS) (dget "shear" d) = Ok (bt_shear t).
Proof.
  intros d t H. unfold mk_bone_timeline in H. rewrite obj_values_dict in H. cbn [bind] in H.
  repeat (inv_bind H). inversion H; subst. use_check. auto.
Qed.
Lemma draw_order_known : forall d t, mk_draw_order (VDict d) = Ok t ->
  unknown CDrawOrder d = [] /\
  do_time t = match dget "time" d with Some v => v | None => VInt 0 end /\
  list_of (mk_obj CDrawOffset) (dget "offsets" d) = Ok (do_offsets t).
Proof.
  intros d t H. unfold mk_draw_order in H. rewrite obj_values_dict in H. cbn [bind] in H.
  repeat (inv_bind H). inversion H; subst. use_check. auto.
Qed.
Lemma animation_known : forall d t, mk_animation (VDict d) = Ok t ->
  unknown CAnimation d = [] /\
  list_of mk_draw_order (dget "drawOrder" d) = Ok (an_drawOrder t) /\
  dict_of mk_bone_timeline (dget "bones" d) = Ok (an_bones t) /\
  dict_of mk_slot_timeline (dget "slots" d) = Ok (an_slots t) /\
  list_of (mk_obj CEventTimeline) (dget "events" d) = Ok (an_events t) /\
  dict_of (fun x => list_of (mk_obj CIkTimeline) (Some x)) (dget "ik" d) = Ok (an_ik t) /\
  dict_of (fun x => list_of (mk_obj CTransformTimeline) (Some x)) (dget "transform" d) = Ok (an_transform t) /\
  items_of (items_of (fun x => list_of (mk_obj CPathTimeline) (Some x)))
    (match dget "path" d with Some x => x | None => vdict end) = Ok (an_path t) /\
  items_of (items_of (items_of (fun x => list_of (mk_obj CDeform) (Some x))))
    (match dget "deform" d with Some x => x | None => vdict end) = Ok (an_deform t).
Proof.
  intros d t H. unfold mk_animation in H. rewrite obj_values_dict in H. cbn [bind] in H.
  repeat (inv_bind H). inversion H; subst. use_check. auto 12.
Qed.
Lemma skin_known : forall d s, mk_skin (VDict d) = Ok s ->
  unknown CSkin38 d = [] /\ sk_name s = val_str (get_or_none "name" d) /\
  match get_or_none "attachments" d with
  | VNone => sk_attachments s = None
  | a => exists m, mk_attachments a = Ok m /\ sk_attachments s = Some m
  end.
Proof.
  intros d s H. unfold mk_skin in H. rewrite obj_values_dict in H. cbn [bind] in H.
  repeat (inv_bind H). use_check. destruct (is_str_or_null _); [ | discriminate]. inversion H; subst. simpl.
  split; auto. split; auto.
  destruct (get_or_none "attachments" d); try (inv_bind E0; inversion E0; subst; eauto). inversion E0; auto.
Qed.
Lemma data_known : forall d x, mk_data d = Ok x ->
  unknown CAnimData (ddel "skeleton" d) = [] /\
  (exists b s k, dget "bones" (ddel "skeleton" d) = Some b /\ dget "slots" (ddel "skeleton" d) = Some s /\
     dget "skins" (ddel "skeleton" d) = Some k /\
     list_of (mk_obj CBone) (Some b) = Ok (d_bones x) /\ list_of (mk_obj CSlot) (Some s) = Ok (d_slots x) /\
     list_of mk_skin (Some k) = Ok (d_skins x)) /\
  dict_of (mk_obj CEvents) (dget "events" (ddel "skeleton" d)) = Ok (d_events x) /\
  list_of (mk_obj CIk) (dget "ik" (ddel "skeleton" d)) = Ok (d_ik x) /\
  list_of (mk_obj CTransform) (dget "transform" (ddel "skeleton" d)) = Ok (d_transform x) /\
  list_of (mk_obj CPath) (dget "path" (ddel "skeleton" d)) = Ok (d_path x) /\
  dict_of mk_animation (dget "animations" (ddel "skeleton" d)) = Ok (d_animations x).
Proof.
  intros d x H. unfold mk_data in H. repeat (inv_bind H). inversion H; subst. use_check.
  inv_bind E. inv_bind E0. inv_bind E1. unfold dget_err in *.
  destruct (dget "bones" _); [ | discriminate]. destruct (dget "slots" _); [ | discriminate].
  destruct (dget "skins" _); [ | discriminate].
  repeat match goal with E : Ok _ = Ok _ |- _ => inversion E; subst; clear E end.
  split; auto. split; [ | auto 10]. do 3 eexists. repeat split; eauto.
Qed.

(** ** Attachment types (C11) *)
Definition att_types : list (val * cls) :=
  [(VStr "mesh", CSkinMesh); (VStr "path", CSkinPath); (VStr "linkedmesh", CSkinLinkedMesh); (VNone, CSkinAttachment)].

Lemma attachment_loads : forall d t c,
  In (t, c) att_types -> get_or_none "type" d = t ->
  (forall k, In k (dkeys d) -> In k (attrs_of c)) ->
  (forall k, In k ["name"; "path"; "skin"] -> is_str_or_null (get_or_none k d) = true) ->
  exists o, mk_attachment (VDict d) = Ok o /\ o_cls o = c /\
    (forall k, In k (attrs_of c) -> oget o k = get_or_none k d).
Proof.
  intros d t c Hi Ht Hk Hs. unfold mk_attachment. cbn [as_dict bind]. rewrite Ht.
  assert (Hc : attachment_class t = Ok c /\ required c = []).
  { simpl in Hi. repeat (destruct Hi as [Hi | Hi]; [inversion Hi; subst; split; reflexivity | ]). destruct Hi. }
  destruct Hc as [Hc Hr]. rewrite Hc. cbn [bind]. unfold mk_obj. rewrite build_obj_spec.
  rewrite (proj2 (unknown_nil c d) Hk). unfold missing. rewrite Hr. simpl filter. cbv iota. cbn [bind].
  set (o := mkObj c _). assert (Ho : forall k, In k (attrs_of c) -> oget o k = get_or_none k d).
  { intros k Hin. unfold o, oget. simpl. rewrite dget_map_key by auto. auto. }
  assert (Hg : type_guard o = true).
  { unfold type_guard. apply andb_true_intro. split.
    - apply forallb_forall. intros k Hin. simpl in Hin. rewrite Ho by (apply name_attrs_attrs; auto). apply Hs.
      simpl in Hi. repeat (destruct Hi as [Hi | Hi]; [inversion Hi; subst; simpl in Hin; simpl; tauto | ]). destruct Hi.
    - simpl in Hi. repeat (destruct Hi as [Hi | Hi]; [inversion Hi; subst; reflexivity | ]). destruct Hi. }
  rewrite Hg. exists o. auto.
Qed.

Lemma attachment_refused : forall d t, In t ["point"; "clipping"; "boundingbox"] ->
  dget "type" d = Some (VStr t) ->
  exists l, mk_attachment (VDict d) = Err (EUnsupported l) /\ In "type" l.
Proof.
  intros d t Hi Ht. unfold mk_attachment. cbn [as_dict bind]. unfold get_or_none at 1. rewrite Ht.
  assert (exists c, attachment_class (VStr t) = Ok c /\ ~ In "type" (attrs_of c)) as [c [-> Hc]].
  { simpl in Hi. repeat (destruct Hi as [<- | Hi]; [eexists; split; [reflexivity | simpl; intuition discriminate] | ]). destruct Hi. }
  cbn [bind]. unfold mk_obj. rewrite build_obj_spec.
  assert (Hu : In "type" (unknown c d)).
  { unfold unknown. apply filter_In. split; [eapply dget_in_keys; eauto | ]. apply negb_true_iff, smem_nin. auto. }
  destruct (unknown c d) as [ | x l]; [destruct Hu | ]. eexists. split; [reflexivity | auto].
Qed.
Lemma attachment_region : forall d, dget "type" d = Some (VStr "region") ->
  mk_attachment (VDict d) = Err (EValue "wrong skin attachment type").
Proof. intros d H. unfold mk_attachment. cbn [as_dict bind]. unfold get_or_none. rewrite H. reflexivity. Qed.

(** ** clean_unsupported_attributes on the whole data (C03) *)
Lemma map_same : forall A (f : A -> A) l, (forall x, f x = x) -> map f l = l.
Proof. intros. rewrite <- (map_id l) at 2. apply map_ext. auto. Qed.
Lemma dmap_same : forall A (f : A -> A) (d : dict A), (forall x, f x = x) -> dmap f d = d.
Proof. intros. apply dmap_id_ext. auto. Qed.
Lemma data_map_same : forall f d, (forall o, f o = o) -> data_map f d = d.
Proof.
  intros f [b s k e i t p a] H. unfold data_map. simpl.
  assert (Hl : forall l, map f l = l) by (intros; apply map_same; auto).
  assert (Hd : forall d, dmap (map f) d = d) by (intros; apply dmap_same; auto).
  assert (Hd2 : forall d, dmap (dmap (map f)) d = d) by (intros; apply dmap_same; auto).
  f_equal; auto.
  - apply map_same. intros [n [m | ]]; unfold skin_map; simpl; auto. f_equal. f_equal. apply dmap_same.
    intros. apply dmap_same. auto.
  - apply dmap_same. auto.
  - apply dmap_same. intros [x1 x2 x3 x4 x5 x6 x7 x8]. unfold animation_map. simpl. f_equal; auto.
    + apply map_same. intros [y1 y2]. unfold draw_order_map. simpl. rewrite Hl. auto.
    + apply dmap_same. intros [y1 y2 y3 y4]. unfold bone_timeline_map. simpl. rewrite !Hl. auto.
    + apply dmap_same. intros [y1 y2 y3]. unfold slot_timeline_map. simpl. rewrite !Hl. auto.
    + apply dmap_same. auto.
Qed.
Lemma data_clean_noop : forall ver d, (0 <= v_patch ver)%Z -> data_clean_unsupported ver d = d.
Proof. intros. apply data_map_same. intros. apply clean_noop. apply ver_lt_3_8. auto. Qed.
Lemma attachment_never : forall d,
  (forall t, In t ["point"; "clipping"; "boundingbox"] -> dget "type" d = Some (VStr t) ->
     exists l, mk_attachment (VDict d) = Err (EUnsupported l) /\ In "type" l) /\
  (dget "type" d = Some (VStr "region") ->
     mk_attachment (VDict d) = Err (EValue "wrong skin attachment type")).
Proof. intros d. split; [intros; eapply attachment_refused; eauto | apply attachment_region]. Qed.
