(** Specification for documents: two documents with the same shape whose attributes have
    the same values (Python [==], or identical), and the elements of a document that the
    reload of an export depends on. *)
From Verif Require Import PyBase Json Version Classes.
Open Scope string_scope.

Definition same_val (v w : val) : Prop := v = w \/ py_eq v w = true.
Definition same_obj (o o' : obj) : Prop :=
  o_cls o = o_cls o' /\ forall k, In k (attrs_of (o_cls o)) -> same_val (oget o k) (oget o' k).

(** Same keys in the same order, related values. *)
Definition drel {A} (R : A -> A -> Prop) : dict A -> dict A -> Prop :=
  Forall2 (fun x y => fst x = fst y /\ R (snd x) (snd y)).

Definition same_objs := Forall2 same_obj.
Definition same_slot_timeline (t u : slot_timeline) : Prop :=
  same_objs (st_attachment t) (st_attachment u) /\ same_objs (st_color t) (st_color u) /\
  same_objs (st_twoColor t) (st_twoColor u).
Definition same_bone_timeline (t u : bone_timeline) : Prop :=
  same_objs (bt_rotate t) (bt_rotate u) /\ same_objs (bt_translate t) (bt_translate u) /\
  same_objs (bt_scale t) (bt_scale u) /\ same_objs (bt_shear t) (bt_shear u).
Definition same_draw_order (d e : draw_order) : Prop :=
  same_val (do_time d) (do_time e) /\ same_objs (do_offsets d) (do_offsets e).
Definition same_animation (a b : animation) : Prop :=
  drel same_objs (an_ik a) (an_ik b) /\ Forall2 same_draw_order (an_drawOrder a) (an_drawOrder b) /\
  drel same_bone_timeline (an_bones a) (an_bones b) /\ drel same_slot_timeline (an_slots a) (an_slots b) /\
  same_objs (an_events a) (an_events b) /\ drel same_objs (an_transform a) (an_transform b) /\
  drel (drel same_objs) (an_path a) (an_path b) /\
  drel (drel (drel same_objs)) (an_deform a) (an_deform b).
Definition same_skin (s t : skin) : Prop :=
  sk_name s = sk_name t /\
  match sk_attachments s, sk_attachments t with
  | Some a, Some b => drel (drel same_obj) a b
  | None, None => True
  | _, _ => False
  end.
Definition same_data (x y : anim_data) : Prop :=
  same_objs (d_bones x) (d_bones y) /\ same_objs (d_slots x) (d_slots y) /\
  Forall2 same_skin (d_skins x) (d_skins y) /\ drel same_obj (d_events x) (d_events y) /\
  same_objs (d_ik x) (d_ik y) /\ same_objs (d_transform x) (d_transform y) /\
  same_objs (d_path x) (d_path y) /\ drel same_animation (d_animations x) (d_animations y).

(** No required attribute is null (bones and slots have a string as name). *)
Definition no_null_required (d : anim_data) : Prop :=
  (forall s, In s (d_slots d) -> oget s "bone" <> VNone) /\
  (forall n a dr o, In (n, a) (d_animations d) -> In dr (an_drawOrder a) -> In o (do_offsets dr) ->
     oget o "offset" <> VNone).
(** No draw order timeline has the time null. *)
Definition no_null_time (d : anim_data) : Prop :=
  forall n a dr, In (n, a) (d_animations d) -> In dr (an_drawOrder a) -> do_time dr <> VNone.
