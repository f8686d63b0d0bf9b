(** Specification for C130: which JSON documents load. *)
From Verif Require Import PyBase Json Version Classes SpecTables TableFacts DrawOrder SpineGraph AnimData Editor SpecAnim SpecEditor SpecUnicode SpecNums.
From Coq Require Import SpecFloat.
Open Scope string_scope.

(** ** The shape of a document *)
(** Values that [values or {}] replaces *)
Definition falsy (v : val) : Prop :=
  In v [VNone; VBool false; VInt 0; VStr ""; VList []; VDict []] \/ exists s, v = VFloat (S754_zero s).
(** [d] are the fields of the JSON value [v] for an element of class [c]. *)
Definition fields_of (c : cls) (v : val) (d : dict val) : Prop :=
  v = VDict d \/ d = [] /\ match c with CIk | CTransform => v = VNone | _ => falsy v end.
(** All fields are declared and all required ones are there. *)
Definition known_fields (c : cls) (d : dict val) : Prop :=
  (forall k, In k (dkeys d) -> In k (r_attrs (declared c))) /\
  (forall k, In k (r_required (declared c)) -> In k (dkeys d)).
(** Fields that are names: null or a string (else the document is outside the model) *)
Definition names_in (c : cls) : list string :=
  match c with
  | CBone => ["name"; "parent"; "transform"]
  | CSlot => ["name"; "bone"; "attachment"; "color"]
  | CSlotKeyframe => ["name"]
  | CDrawOffset => ["slot"]
  | CSkinAttachment | CSkinMesh => ["name"; "path"]
  | CSkinPath => ["name"]
  | CSkinLinkedMesh => ["name"; "path"; "skin"]
  | CIk => ["name"; "target"]
  | _ => []
  end.
Definition null_or_text (v : option val) : Prop := match v with None | Some VNone | Some (VStr _) => True | _ => False end.
Definition element (c : cls) (v : val) : Prop := exists d, fields_of c v d /\ known_fields c d /\
  (forall k, In k (names_in c) -> null_or_text (dget k d)) /\
  (c = CBone \/ c = CSlot -> exists n, dget "name" d = Some (VStr n)).

(** What a loop over the elements accepts in place of a list, and of a dictionary *)
Definition list_like (P : val -> Prop) (v : val) : Prop :=
  (exists l, v = VList l /\ Forall P l) \/ (exists d, v = VDict d /\ Forall (fun kv => P (VStr (fst kv))) d) \/ v = VStr "".
Definition dict_only (P : val -> Prop) (v : val) : Prop := exists d, v = VDict d /\ Forall (fun kv => P (snd kv)) d.
Definition dict_like (P : val -> Prop) (v : val) : Prop := dict_only P v \/ v = VList [] \/ v = VStr "".
Definition may_be (P : val -> Prop) (v : option val) : Prop := match v with None => True | Some x => P x end.
(** An element with other elements in the given fields *)
Definition compound (c : cls) (parts : list (string * (val -> Prop))) (v : val) : Prop :=
  exists d, fields_of c v d /\ known_fields c d /\ forall k P, In (k, P) parts -> may_be P (dget k d).

Definition slot_timeline_doc : val -> Prop := compound CSlotTimeline
  [("attachment", list_like (element CSlotKeyframe)); ("color", list_like (element CSlotKeyframe)); ("twoColor", list_like (element CSlotKeyframe))].
Definition bone_timeline_doc : val -> Prop := compound CBoneTimeline
  [("rotate", list_like (element CBoneRS)); ("translate", list_like (element CBoneTS));
   ("scale", list_like (element CBoneRS)); ("shear", list_like (element CBoneTS))].
Definition draw_order_doc : val -> Prop := compound CDrawOrder [("offsets", list_like (element CDrawOffset))].
Definition animation_doc : val -> Prop := compound CAnimation
  [("ik", dict_like (list_like (element CIkTimeline))); ("drawOrder", list_like draw_order_doc);
   ("bones", dict_like bone_timeline_doc); ("slots", dict_like slot_timeline_doc);
   ("events", list_like (element CEventTimeline)); ("transform", dict_like (list_like (element CTransformTimeline)));
   ("path", dict_only (dict_only (list_like (element CPathTimeline))));
   ("deform", dict_only (dict_only (dict_only (list_like (element CDeform)))))].
(** Attachments of the types point, clipping and boundingbox do not load. *)
Definition attachment_doc (v : val) : Prop := exists d, v = VDict d /\
  match dget "type" d with
  | None | Some VNone => element CSkinAttachment v
  | Some (VStr "mesh") => element CSkinMesh v
  | Some (VStr "linkedmesh") => element CSkinLinkedMesh v
  | Some (VStr "path") => element CSkinPath v
  | _ => False
  end.
Definition skin_doc_ok (v : val) : Prop := exists d, fields_of CSkin38 v d /\ known_fields CSkin38 d /\ null_or_text (dget "name" d) /\
  (dget "attachments" d = Some VNone \/ may_be (dict_only (dict_only attachment_doc)) (dget "attachments" d)).
Record document_doc (v : val) (d sk : dict val) (ver : version) : Prop := {
  dd_dict : v = VDict d;
  dd_skeleton : dget "skeleton" d = Some (VDict sk);
  dd_version : exists s l, dget "spine" sk = Some (VStr s) /\ reads_as s l /\ version_text l ver;
  dd_known : forall k, In k (dkeys d) -> k = "skeleton" \/ In k (r_attrs (declared CAnimData));
  dd_bones : exists x, dget "bones" d = Some x /\ list_like (element CBone) x;
  dd_slots : exists x, dget "slots" d = Some x /\ list_like (element CSlot) x;
  dd_skins : exists x, dget "skins" d = Some x /\ list_like skin_doc_ok x;
  dd_events : may_be (dict_like (element CEvents)) (dget "events" d);
  dd_ik : may_be (list_like (element CIk)) (dget "ik" d);
  dd_transform : may_be (list_like (element CTransform)) (dget "transform" d);
  dd_path : may_be (list_like (element CPath)) (dget "path" d);
  dd_animations : may_be (dict_like animation_doc) (dget "animations" d) }.

(** ** Documents with the JSON types that are expected (C131): objects and lists where they belong
    and names that are texts; any fields, values and attachment types *)
Definition typed_element (c : cls) (v : val) : Prop := exists d, v = VDict d /\ (forall k, In k (names_in c) -> null_or_text (dget k d)) /\
  (c = CBone \/ c = CSlot -> dget "name" d <> Some VNone).
Definition typed_list (P : val -> Prop) (v : val) : Prop := exists l, v = VList l /\ Forall P l.
Definition typed_parts (parts : list (string * (val -> Prop))) (v : val) : Prop :=
  exists d, v = VDict d /\ forall k P, In (k, P) parts -> may_be P (dget k d).
Definition typed_attachment (v : val) : Prop := exists d, v = VDict d /\ forall k, In k ["name"; "path"; "skin"] -> null_or_text (dget k d).
Definition typed_skin (v : val) : Prop := exists d, v = VDict d /\ null_or_text (dget "name" d) /\
  (dget "attachments" d = Some VNone \/ may_be (dict_only (dict_only typed_attachment)) (dget "attachments" d)).
Definition typed_slot_timeline : val -> Prop := typed_parts
  [("attachment", typed_list (typed_element CSlotKeyframe)); ("color", typed_list (typed_element CSlotKeyframe)); ("twoColor", typed_list (typed_element CSlotKeyframe))].
Definition typed_bone_timeline : val -> Prop := typed_parts
  [("rotate", typed_list (typed_element CBoneRS)); ("translate", typed_list (typed_element CBoneTS));
   ("scale", typed_list (typed_element CBoneRS)); ("shear", typed_list (typed_element CBoneTS))].
Definition typed_draw_order : val -> Prop := typed_parts [("offsets", typed_list (typed_element CDrawOffset))].
Definition typed_animation : val -> Prop := typed_parts
  [("ik", dict_only (typed_list (typed_element CIkTimeline))); ("drawOrder", typed_list typed_draw_order);
   ("bones", dict_only typed_bone_timeline); ("slots", dict_only typed_slot_timeline);
   ("events", typed_list (typed_element CEventTimeline)); ("transform", dict_only (typed_list (typed_element CTransformTimeline)));
   ("path", dict_only (dict_only (typed_list (typed_element CPathTimeline))));
   ("deform", dict_only (dict_only (dict_only (typed_list (typed_element CDeform)))))].
Definition typed_document (v : val) : Prop := exists d sk s, v = VDict d /\ dget "skeleton" d = Some (VDict sk) /\ dget "spine" sk = Some (VStr s) /\
  (forall k, In k ["bones"; "slots"; "skins"] -> dget k d <> None) /\
  typed_parts [("bones", typed_list (typed_element CBone)); ("slots", typed_list (typed_element CSlot)); ("skins", typed_list typed_skin);
   ("events", dict_only (typed_element CEvents)); ("ik", typed_list (typed_element CIk)); ("transform", typed_list (typed_element CTransform));
   ("path", typed_list (typed_element CPath)); ("animations", dict_only typed_animation)] v.
(** What the library raises itself *)
Definition parsing_error (e : exn) : Prop := (exists ks, ks <> [] /\ e = EUnsupported ks) \/ (exists ks, ks <> [] /\ e = ERequired ks) \/ (exists w, e = EValue w).

(** ** What the editor asks of a loaded document *)
Definition name_text (o : obj) : string := match ostr o "name" with Some n => n | None => "None" end.
Definition parent_text (o : obj) : string := match ostr o "parent" with Some n => n | None => "None" end.
(** Lists of bones of an ik: not the default, which is not exported *)
Definition some_bones (v : val) : Prop := (exists x l, v = VList (x :: l)) \/ (exists s, v = VStr s) \/ (exists d, v = VDict d).
Record usable (x : document) : Prop := {
  us_bones : d_bones (doc_data x) <> [];
  us_bone_names : NoDup (map bone_name (d_bones (doc_data x)));
  us_slot_names : NoDup (map slot_name (d_slots (doc_data x)));
  us_ik_names : NoDup (map name_text (d_ik (doc_data x)));
  us_parents : forall b, In b (d_bones (doc_data x)) -> parent_text b <> bone_name b;
  us_ik : forall i, In i (d_ik (doc_data x)) -> name_text i <> "" /\ some_bones (oget i "bones");
  us_version : d_skins (doc_data x) <> [] -> (3 <= v_major (doc_version x) /\ 8 <= v_minor (doc_version x) /\ 0 <= v_patch (doc_version x))%Z;
  us_filed : forall s sl m, In s (d_skins (doc_data x)) -> In (sl, m) (sk_atts s) ->
    exists slot f, In slot (d_slots (doc_data x)) /\ slot_name slot = sl /\ slot_scale_is (doc_data x) slot f;
  us_folder : forall sl k o, skin_attachment (doc_data x) sl k o -> o_cls o <> CSkinPath -> null_or_text (dget "images" (doc_skeleton x)) /\ dget "images" (doc_skeleton x) <> Some VNone }.
