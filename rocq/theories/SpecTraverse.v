(** The objects behind the records of Classes.v, and elements at any depth. *)
From Verif Require Import PyBase PyNum Json Classes Traverse.
Open Scope string_scope.

Definition p_list {A} (f : A -> pyobj) (l : list A) : pyobj := PList (map f l).
Definition p_dict {A} (f : A -> pyobj) (d : dict A) : pyobj := PDict (dmap f d).
Definition p_obj (o : obj) : pyobj := PElem (o_cls o) (dmap of_val (o_attrs o)).
Definition p_slot_timeline (t : slot_timeline) : pyobj :=
  PElem CSlotTimeline [("attachment", p_list p_obj (st_attachment t)); ("color", p_list p_obj (st_color t));
                       ("twoColor", p_list p_obj (st_twoColor t))].
Definition p_bone_timeline (t : bone_timeline) : pyobj :=
  PElem CBoneTimeline [("rotate", p_list p_obj (bt_rotate t)); ("translate", p_list p_obj (bt_translate t));
                       ("scale", p_list p_obj (bt_scale t)); ("shear", p_list p_obj (bt_shear t))].
Definition p_draw_order (d : draw_order) : pyobj :=
  PElem CDrawOrder [("time", of_val (do_time d)); ("offsets", p_list p_obj (do_offsets d))].
Definition p_animation (a : animation) : pyobj :=
  PElem CAnimation [("ik", p_dict (p_list p_obj) (an_ik a)); ("drawOrder", p_list p_draw_order (an_drawOrder a));
    ("bones", p_dict p_bone_timeline (an_bones a)); ("slots", p_dict p_slot_timeline (an_slots a));
    ("events", p_list p_obj (an_events a)); ("transform", p_dict (p_list p_obj) (an_transform a));
    ("path", p_dict (p_dict (p_list p_obj)) (an_path a));
    ("deform", p_dict (p_dict (p_dict (p_list p_obj))) (an_deform a))].
Definition p_skin (s : skin) : pyobj :=
  PElem CSkin38 [("name", of_val (opt_val (sk_name s)));
    ("attachments", match sk_attachments s with Some a => p_dict (p_dict p_obj) a | None => PNone end)].
Definition p_data (d : anim_data) : pyobj :=
  PElem CAnimData [("bones", p_list p_obj (d_bones d)); ("slots", p_list p_obj (d_slots d));
    ("skins", p_list p_skin (d_skins d)); ("events", p_dict p_obj (d_events d));
    ("ik", p_list p_obj (d_ik d)); ("transform", p_list p_obj (d_transform d));
    ("path", p_list p_obj (d_path d)); ("animations", p_dict p_animation (d_animations d))].

(** The element of class [c] with attributes [a] occurs in an object, at any depth. *)
Inductive occurs (c : cls) (a : list (string * pyobj)) : pyobj -> Prop :=
| occurs_here : occurs c a (PElem c a)
| occurs_list : forall x l, In x l -> occurs c a x -> occurs c a (PList l)
| occurs_dict : forall k x d, In (k, x) d -> occurs c a x -> occurs c a (PDict d)
| occurs_attr : forall k x c' d, In (k, x) d -> occurs c a x -> occurs c a (PElem c' d).
