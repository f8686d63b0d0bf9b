(** Specification for erase_skins and for the entries of images_references. *)
From Verif Require Import PyBase PyNum Json Version Classes SpineGraph DrawOrder AnimData Editor SpecAnim SpecEditor.
Open Scope string_scope.

(** [d'] is [d] without the skin [s] called [n] and its deform timelines; meshes linked to
    it have become copies. *)
Record skin_erased (n : string) (d d' : anim_data) (s : skin) : Prop := {
  ke_skin : first_skin d n s;
  ke_source : has_source d n s;
  ke_bones : d_bones d' = d_bones d;
  ke_slots : d_slots d' = d_slots d;
  ke_events : d_events d' = d_events d;
  ke_ik : d_ik d' = d_ik d;
  ke_transform : d_transform d' = d_transform d;
  ke_path : d_path d' = d_path d;
  ke_skins : Forall2 (skin_unlinked n s) (others n (d_skins d)) (d_skins d');
  ke_anims : Forall2 (fun x y => fst y = fst x /\ without_deform n (snd x) (snd y)) (d_animations d) (d_animations d') }.
(** One name after the other *)
Inductive erased : list string -> anim_data -> anim_data -> list skin -> Prop :=
| erased_nil : forall d, erased [] d d []
| erased_cons : forall n l d d1 d2 s ss, skin_erased n d d1 s -> erased l d1 d2 ss -> erased (n :: l) d d2 (s :: ss).

Definition named_in (l : list string) (s : skin) : bool :=
  match sk_name s with Some n => smem n l | None => false end.
(** No mesh is linked to one of the skins. *)
Definition no_links (l : list string) (d : anim_data) : Prop :=
  forall n sl k o, In n l -> skin_attachment d sl k o -> ~ linked_to n o.

(** The images erase_skins takes from the skin [s]: the path or name of a mesh (perhaps
    None), of a plain image attachment if it has one, and the path of any other kind. *)
Definition image_of_skin (s : skin) (x : option string) : Prop :=
  exists sl k o, in_skin s sl k o /\
    (((o_cls o = CSkinMesh \/ o_cls o = CSkinLinkedMesh) /\ names_image o x) \/
     (o_cls o = CSkinAttachment /\ names_image o x /\ x <> None) \/
     (o_cls o <> CSkinAttachment /\ o_cls o <> CSkinMesh /\ o_cls o <> CSkinLinkedMesh /\
      exists p, ostr o "path" = Some p /\ x = Some p)).
(** None counts as an image called "None". *)
Definition shown_image (x : option string) : string := match x with Some i => i | None => "None" end.
(** Some attachment left, of any kind, has the image. *)
Definition image_left (d : anim_data) (i : string) : Prop :=
  exists sl k o, skin_attachment d sl k o /\ att_image k o = i.

(** ** Entries of images_references *)
(** The attachments of all skins, in order *)
Definition uses (d : anim_data) : list (string * (string * obj)) :=
  flat_map (fun s => flat_map (fun kv => map (fun ko => (fst kv, ko)) (snd kv)) (sk_atts s)) (d_skins d).
Definition uses_image (i : string) (u : string * (string * obj)) : Prop :=
  o_cls (snd (snd u)) <> CSkinPath /\ att_image (fst (snd u)) (snd (snd u)) = i.
(** The last use of image [i] is on slot [sl]. *)
Definition last_use (d : anim_data) (i sl : string) : Prop :=
  exists l1 ko l2, uses d = (l1 ++ (sl, ko) :: l2)%list /\ uses_image i (sl, ko) /\ forall u, In u l2 -> ~ uses_image i u.
(** os.path.join on POSIX *)
Inductive joined : string -> string -> string -> Prop :=
| join_absolute : forall a b, joined a ("/" ++ b) ("/" ++ b)
| join_slash : forall a b, (forall b', b <> "/" ++ b') -> joined (a ++ "/") b (a ++ "/" ++ b)
| join_empty : forall b, (forall b', b <> "/" ++ b') -> joined "" b b
| join_plain : forall a b, (forall b', b <> "/" ++ b') -> a <> "" -> (forall a', a <> a' ++ "/") -> joined a b (a ++ "/" ++ b).
(** The header's images folder, "./images/" by default *)
Definition images_folder (e : editor) (f : string) : Prop :=
  dget "images" (doc_skeleton (e_doc e)) = Some (VStr f) \/ (dget "images" (doc_skeleton (e_doc e)) = None /\ f = "./images/").
Definition entry_of (e : editor) (i sl : string) (r : imgref) : Prop :=
  exists f s x, images_folder e f /\ joined f i (im_path r) /\ first_named slot_name sl (d_slots (e_data e)) s /\ slot_scale_is (e_data e) s x /\
    im_scale r = if feqb x f_one then None else Some x.
