(** Model of /repo/spine_json_lib/data/data_types/*.py: the element classes, how they
    are built from JSON, how defaults are filled in and how they are exported.

    An element without nested elements is an [obj]: its class and its [__dict__].
    Elements with nested elements (timelines, animations, skins, the whole document)
    are records whose fields are the attributes.

    Simplifications (also listed in DESIGN.md):
    - attributes that the code uses as names must be strings or null (and the name of
      a bone or slot a string); other documents give [EUnmodelled] ([type_guard]);
    - error messages are reduced to the exception kind and, for SpineParsingException,
      the attribute names. *)
From Verif Require Import PyBase PyNum Json Version.
From Coq Require Import SpecFloat.
Open Scope string_scope.

Inductive cls : Set :=
| CBone | CBoneTS | CBoneRS | CBoneTimeline | CDeform | CDrawOffset | CDrawOrder
| CEvents | CEventTimeline | CIk | CIkTimeline | CPath | CPathTimeline
| CSkin38 | CSkinAttachment | CSkinMesh | CSkinPath | CSkinLinkedMesh
| CSkinBoundingBox | CSkinPoint | CSkinClipping
| CSlot | CSlotKeyframe | CSlotTimeline | CTransform | CTransformTimeline
| CAnimation | CAnimData.

(** The attributes each [__init__] assigns, in assignment order (= order of [__dict__]). *)
Definition attrs_of (c : cls) : list string :=
  match c with
  | CBone => (* bone.py:28-41 *)
      ["name"; "parent"; "color"; "scaleX"; "transform"; "shearY"; "scaleY"; "inheritRotation";
       "length"; "y"; "x"; "rotation"; "shearX"; "inheritScale"]
  | CBoneTS | CBoneRS => (* bone.py:72-79, 102-109 *)
      ["time"; "curve"; "angle"; "x"; "y"; "c2"; "c3"; "c4"]
  | CBoneTimeline => ["rotate"; "translate"; "scale"; "shear"] (* bone.py:126-138 *)
  | CDeform => (* deform.py:21-27 *) ["vertices"; "time"; "curve"; "offset"; "c2"; "c3"; "c4"]
  | CDrawOffset => ["slot"; "offset"] (* draworder.py:17-18 *)
  | CDrawOrder => ["time"; "offsets"] (* draworder.py:30-33 *)
  | CEvents => ["int"; "float"; "string"] (* events.py:13-15 *)
  | CEventTimeline => (* events.py:36-43 *)
      ["time"; "name"; "int"; "float"; "string"; "audio"; "volume"; "balance"]
  | CIk => (* ik.py:23-32 *)
      ["name"; "order"; "bones"; "target"; "mix"; "bendPositive"; "softness"; "compress";
       "stretch"; "uniform"]
  | CIkTimeline => (* ik.py:55-63 *)
      ["time"; "mix"; "bendPositive"; "curve"; "c2"; "c3"; "c4"; "compress"; "stretch"]
  | CPath => (* path.py:24-36 *)
      ["name"; "order"; "skin"; "bones"; "target"; "positionMode"; "spacingMode"; "rotateMode";
       "rotation"; "position"; "spacing"; "rotateMix"; "translateMix"]
  | CPathTimeline => (* path.py:57-65 *)
      ["time"; "position"; "spacing"; "rotateMix"; "translateMix"; "curve"; "c2"; "c3"; "c4"]
  | CSkin38 => ["name"; "attachments"] (* skin.py:65-66 *)
  | CSkinAttachment => (* skin.py:91-100 *)
      ["x"; "y"; "rotation"; "width"; "height"; "scaleX"; "scaleY"; "name"; "path"; "color"]
  | CSkinMesh => (* skin.py:117-127 *)
      ["hull"; "uvs"; "vertices"; "height"; "width"; "edges"; "type"; "triangles"; "name"; "path";
       "color"]
  | CSkinPath => (* skin.py:145-152 *)
      ["lengths"; "vertexCount"; "type"; "name"; "vertices"; "color"; "closed"; "constantSpeed"]
  | CSkinLinkedMesh => (* skin.py:164-172 *)
      ["path"; "height"; "width"; "name"; "parent"; "deform"; "color"; "skin"; "type"]
  | CSkinBoundingBox => ["vertexCount"; "vertices"; "color"] (* skin.py:184-186 *)
  | CSkinPoint => ["x"; "y"; "rotation"; "color"] (* skin.py:198-201 *)
  | CSkinClipping => ["end"; "vertexCount"; "vertices"; "color"] (* skin.py:213-216 *)
  | CSlot => ["name"; "bone"; "attachment"; "color"; "dark"; "blend"] (* slot.py:15-20 *)
  | CSlotKeyframe => (* slot.py:45-53 *)
      ["name"; "time"; "curve"; "color"; "dark"; "light"; "c2"; "c3"; "c4"]
  | CSlotTimeline => ["attachment"; "color"; "twoColor"] (* slot.py:72-78 *)
  | CTransform => (* transform.py:25-42 *)
      ["name"; "order"; "bone"; "bones"; "target"; "rotation"; "x"; "y"; "scaleX"; "scaleY";
       "shearX"; "shearY"; "rotateMix"; "translateMix"; "scaleMix"; "shearMix"; "local"; "relative"]
  | CTransformTimeline => (* transform.py:61-69 *)
      ["time"; "rotateMix"; "translateMix"; "scaleMix"; "shearMix"; "curve"; "c2"; "c3"; "c4"]
  | CAnimation => (* animation.py:30-65 *)
      ["ik"; "drawOrder"; "bones"; "slots"; "events"; "transform"; "path"; "deform"]
  | CAnimData => (* spine_anim_data.py:64-84 *)
      ["bones"; "slots"; "skins"; "events"; "ik"; "transform"; "path"; "animations"]
  end.

Definition f1 : val := VFloat f_one.
Definition vlist : val := VList [].
Definition vdict : val := VDict [].

(** DEFAULT_VALUES of each class. *)
Definition defaults_old (c : cls) : dict val :=
  match c with
  | CBone => (* bone.py:8-20 *)
      [("x", VInt 0); ("y", VInt 0); ("scaleX", f1); ("scaleY", f1); ("shearX", VInt 0);
       ("shearY", VInt 0); ("transform", VStr "normal"); ("inheritRotation", VBool false);
       ("rotation", VInt 0); ("length", VInt 0); ("inheritScale", VBool false)]
  | CBoneTS | CBoneRS => [("curve", vlist)] (* bone.py:55, 85 *)
  | CBoneTimeline => (* bone.py:115-120 *)
      [("rotate", vlist); ("translate", vlist); ("scale", vlist); ("shear", vlist)]
  | CDeform => [("vertices", vlist); ("curve", vlist)] (* deform.py:7 *)
  | CDrawOffset => [("slot", VStr "")] (* draworder.py:9 *)
  | CDrawOrder => [("offset", vlist)] (* draworder.py:24 *)
  | CEvents => [("int", VInt 0); ("float", VInt 0); ("string", VStr "")] (* events.py:7 *)
  | CEventTimeline => (* events.py:21 *)
      [("name", VStr ""); ("int", VInt 0); ("float", VInt 0); ("string", VStr "")]
  | CIk => (* ik.py:7-17 *)
      [("name", VStr ""); ("order", VInt 0); ("bones", vlist); ("target", VStr "");
       ("bendPositive", VBool true); ("softness", VInt 0); ("compress", VBool false);
       ("stretch", VBool false); ("uniform", VBool false)]
  | CIkTimeline => [("bendPositive", VBool true); ("curve", vlist)] (* ik.py:38 *)
  | CPath => (* path.py:5-18 *)
      [("name", VStr ""); ("bones", vlist); ("target", VStr ""); ("positionMode", VStr "");
       ("spacingMode", VStr ""); ("rotateMode", VStr ""); ("rotation", VInt 0);
       ("position", VInt 0); ("spacing", VInt 1); ("rotateMix", VInt 1); ("translateMix", VInt 1);
       ("skin", VBool false)]
  | CPathTimeline => (* path.py:42 *)
      [("position", VInt 0); ("spacing", VInt 1); ("rotateMix", VInt 1); ("translateMix", VInt 1)]
  | CSkin38 => [("name", VStr ""); ("attachments", vdict)] (* skin.py:59 *)
  | CSkinAttachment => (* skin.py:79-85 *)
      [("x", VInt 0); ("y", VInt 0); ("rotation", VInt 0); ("scaleX", f1); ("scaleY", f1)]
  | CSkinMesh => (* skin.py:106-111 *)
      [("uvs", vlist); ("vertices", vlist); ("edges", vlist); ("triangles", vlist)]
  | CSkinPath => (* skin.py:133-139 *)
      [("lengths", vlist); ("vertexCount", VInt 0); ("vertices", vlist);
       ("constantSpeed", VBool true); ("closed", VBool false)]
  | CSkinLinkedMesh => [] (* skin.py:158 *)
  | CSkinBoundingBox => [] (* skin.py:178 *)
  | CSkinPoint => [("x", VInt 0); ("y", VInt 0); ("rotation", VInt 0)] (* skin.py:192 *)
  | CSkinClipping => [("vertexCount", VInt 0); ("vertices", vlist)] (* skin.py:207 *)
  | CSlot => [] (* slot.py:8 *)
  | CSlotKeyframe => [("curve", vlist); ("name", VNone)] (* slot.py:30 *)
  | CSlotTimeline => [("attachment", vlist); ("color", vlist); ("twoColor", vlist)] (* slot.py:62-66 *)
  | CTransform => (* transform.py:7-19 *)
      [("name", VStr ""); ("order", VInt 0); ("bone", VStr ""); ("target", VStr "");
       ("rotation", VInt 0); ("x", VInt 0); ("y", VInt 0); ("scaleX", f1); ("scaleY", f1);
       ("shearX", VInt 0); ("shearY", VInt 0)]
  | CTransformTimeline => [("curve", vlist)] (* transform.py:48 *)
  | CAnimation => (* animation.py:15-24 *)
      [("ik", vdict); ("drawOrder", vlist); ("bones", vdict); ("slots", vdict); ("events", vlist);
       ("transform", vdict); ("deform", vdict); ("path", vdict)]
  | CAnimData => (* spine_anim_data.py:49-57 *)
      [("bones", vlist); ("slots", vlist); ("events", vdict); ("ik", vlist); ("transform", vlist);
       ("path", vlist); ("animations", vdict)]
  end.

Definition c234 : dict val := [("c2", VInt 0); ("c3", VInt 1); ("c4", VInt 1)].

(** SPINE_3_8_DEFAULT_VALUES of each class. *)
Definition defaults_38 (c : cls) : dict val :=
  match c with
  | CBoneTS => (* bone.py:58-67 *)
      [("curve", vlist); ("angle", VInt 0); ("time", VInt 0); ("x", VInt 0); ("y", VInt 0)] ++ c234
  | CBoneRS => (* bone.py:88-97 *)
      [("curve", vlist); ("angle", VInt 0); ("x", VInt 1); ("y", VInt 1); ("time", VInt 0)] ++ c234
  | CDeform => (* deform.py:8-16 *)
      [("time", VInt 0); ("vertices", vlist); ("curve", vlist); ("offset", vlist)] ++ c234
  | CDrawOrder => [("time", VInt 0); ("offset", vlist)] (* draworder.py:25 *)
  | CEventTimeline => (* events.py:22-31 *)
      [("time", VInt 0); ("name", VStr ""); ("int", VInt 0); ("float", VInt 0); ("string", VStr "");
       ("audio", VStr ""); ("volume", VInt 1); ("balance", VInt 0)]
  | CIkTimeline => (* ik.py:41-50 *)
      [("time", VInt 0); ("bendPositive", VBool true); ("stretch", VBool false); ("curve", vlist);
       ("compress", VBool false)] ++ c234
  | CPathTimeline => (* path.py:43-52 *)
      [("position", VInt 0); ("spacing", VInt 1); ("rotateMix", VInt 1); ("translateMix", VInt 1);
       ("curve", vlist)] ++ c234
  | CSkinLinkedMesh => [("deform", VBool true)] (* skin.py:159 *)
  | CSlotKeyframe => [("curve", vlist); ("name", VNone); ("time", VInt 0)] ++ c234 (* slot.py:33-40 *)
  | CTransformTimeline => [("curve", vlist); ("time", VInt 0)] ++ c234 (* transform.py:50-56 *)
  | _ => defaults_old c (* SPINE_3_8_DEFAULT_VALUES = DEFAULT_VALUES in the other classes *)
  end%list.

(** base_type.py:69-72 (default_values) *)
Definition default_values (c : cls) (ver : version) : dict val :=
  if ver_ge ver SPINE_3_8 then defaults_38 c else defaults_old c.

(** REQUIRED (base_type.py:25, bone.py:23, slot.py:10, draworder.py:12) *)
Definition required (c : cls) : list string :=
  match c with
  | CBone => ["name"]
  | CSlot => ["name"; "bone"]
  | CDrawOffset => ["offset"]
  | _ => []
  end.

(** UNSUPPORTED_VALUES_OLD_VERSION (base_type.py:18, bone.py:56,86, ik.py:39, slot.py:31) *)
Definition unsupported_old (c : cls) : option (list string) :=
  match c with
  | CBoneTS | CBoneRS | CIkTimeline | CSlotKeyframe => Some ["c2"; "c3"; "c4"]
  | _ => None
  end.

(** ** Elements without nested elements *)
Record obj := mkObj { o_cls : cls; o_attrs : dict val }.

(** [self.k] for an attribute assigned in [__init__]. *)
Definition oget (o : obj) (k : string) : val :=
  match dget k (o_attrs o) with Some v => v | None => VNone end.
Definition ostr (o : obj) (k : string) : option string := val_str (oget o k).
(** [self.k = v] *)
Definition oset (o : obj) (k : string) (v : val) : obj :=
  mkObj (o_cls o) (dset k v (o_attrs o)).

(** base_type.py:41-61 (SpineData.__init__): [known] are the keys of [__dict__]. *)
Definition check_keys (known req : list string) (values : dict val) : res unit :=
  let missing_attributes := filter (fun k => negb (smem k known)) (dkeys values) in
  match missing_attributes with
  | _ :: _ => Err (EUnsupported missing_attributes)
  | [] =>
      let missing_required := filter (fun k => negb (smem k (dkeys values))) req in
      match missing_required with
      | _ :: _ => Err (ERequired missing_required)
      | [] => Ok tt
      end
  end.

(** [values = values or {}] (all classes but Ik and Transform), then [values.get(...)];
    ik.py:21 and transform.py:23 replace only None. *)
Definition obj_values (c : cls) (v : val) : res (dict val) :=
  match c with
  | CIk | CTransform => match v with VNone => Ok [] | _ => as_dict v end
  | _ => if truthy v then as_dict v else Ok []
  end.

Definition get_or_none (k : string) (values : dict val) : val :=
  match dget k values with Some v => v | None => VNone end.

(** [C(values)] for a class without nested elements: assign the attributes with
    [values.get(k)], then SpineData.__init__. *)
Definition build_attrs (c : cls) (values : dict val) : res obj :=
  let! _ := check_keys (attrs_of c) (required c) values in
  Ok (mkObj c (map (fun k => (k, get_or_none k values)) (attrs_of c))).
Definition build_obj (c : cls) (v : val) : res obj :=
  let! values := obj_values c v in build_attrs c values.

(** Simplification: attributes used as names must be strings or null. *)
Definition name_attrs (c : cls) : list string :=
  match c with
  | CBone => ["name"; "parent"; "transform"]
  | CSlot => ["name"; "bone"; "attachment"; "color"]
  | CSlotKeyframe => ["name"]
  | CDrawOffset => ["slot"]
  | CSkinAttachment | CSkinMesh => ["name"; "path"]
  | CSkinPath => ["name"]
  | CSkinLinkedMesh => ["name"; "path"; "skin"]
  | CIk => ["name"; "target"]
  | _ => []
  end.
Definition is_str_or_null (v : val) : bool := match v with VNone | VStr _ => true | _ => false end.
Definition is_str (v : val) : bool := match v with VStr _ => true | _ => false end.
Definition type_guard (o : obj) : bool :=
  forallb (fun k => is_str_or_null (oget o k)) (name_attrs (o_cls o)) &&
  match o_cls o with
  | CBone | CSlot => is_str (oget o "name")
  | _ => true
  end.

Definition mk_obj (c : cls) (v : val) : res obj :=
  let! o := build_obj c v in
  if type_guard o then Ok o else Err (EUnmodelled "a name that is not a string").

(** base_type.py:97-101 on the attributes of one element *)
Definition fill_defaults (defs : dict val) (attrs : dict val) : dict val :=
  map (fun kv => (fst kv, match snd kv, dget (fst kv) defs with VNone, Some v => v | v, _ => v end)) attrs.
(** set_default_values_from_version on an element without nested elements *)
Definition obj_set_defaults (ver : version) (o : obj) : obj :=
  mkObj (o_cls o) (fill_defaults (default_values (o_cls o) ver) (o_attrs o)).

(** base_type.py:115-117: is this attribute written? *)
Definition is_none (v : val) : bool := match v with VNone => true | _ => false end.
Definition exported (defs : dict val) (k : string) (v : val) : bool :=
  if is_none v
  then match dget k defs with Some VNone => true | _ => false end
  else negb (py_eq v (get_or_none k defs)).

(** base_type.py:109-121 (to_spine_data_ignoring_default_values) given the exported
    values of the attributes: [traverse_spine_data] (139-162) copies plain values,
    and a list or dict of elements differs from the default [] or {} exactly when it
    is not empty, before as after the conversion of its items. *)
Definition export_attrs (defs : dict val) (attrs : dict val) : dict val :=
  filter (fun kv => exported defs (fst kv) (snd kv)) attrs.
Definition obj_json (ver : version) (o : obj) : val :=
  VDict (export_attrs (default_values (o_cls o) ver) (o_attrs o)).

(** base_type.py:124-136 (remove_unsupported_attributes) on such an element *)
Definition obj_clean_unsupported (ver : version) (o : obj) : obj :=
  mkObj (o_cls o)
    (map (fun kv =>
            (fst kv,
             if (ver_lt ver SPINE_3_8 &&
                 match unsupported_old (o_cls o) with
                 | Some l => smem (fst kv) l
                 | None => false
                 end)%bool
             then VNone else snd kv)) (o_attrs o)).

(** ** Building nested elements *)

(** [[C(x) for x in values.get(k, [])]] *)
Definition list_of {A} (f : val -> res A) (v : option val) : res (list A) :=
  match v with
  | None => Ok []
  | Some v' => let! xs := py_iter v' in mapM f xs
  end.

(** [for x in l: f(l[x])] for a list that is not empty, where a dictionary is expected.  This
    raises, unless all elements are ints and [f] accepts those it gets (only classes without
    required attributes do, and only 0, for which [values or {}] is {}); the result would be a
    dictionary with ints as keys, which is outside the model. *)
Definition by_elements {A} (f : val -> res A) (l : list val) : res (dict A) :=
  let! _ := mapM (fun x => let! y := py_nth l x in f y) l in Err (EUnmodelled "a dictionary with ints as keys").

(** [{key: f(values[k][key]) for key in values.get(k, {})}] *)
Definition dict_of {A} (f : val -> res A) (v : option val) : res (dict A) :=
  match v with
  | None => Ok []
  | Some (VDict d) => dmapM f d
  | Some (VList []) | Some (VStr EmptyString) => Ok []
  | Some (VList l) => by_elements f l
  | Some (VStr _) => Err (EType "string indices must be integers")
  | Some _ => Err (EType "object is not iterable")
  end.

(** [{k: f(v) for k, v in values.get(k, {}).items()}] *)
Definition items_of {A} (f : val -> res A) (v : val) : res (dict A) :=
  let! d := as_dict v in dmapM f d.

Record slot_timeline := mkSlotTL { st_attachment : list obj; st_color : list obj; st_twoColor : list obj }.
Record bone_timeline := mkBoneTL { bt_rotate : list obj; bt_translate : list obj; bt_scale : list obj; bt_shear : list obj }.
Record draw_order := mkDrawOrder { do_time : val; do_offsets : list obj }.
Record animation := mkAnimation {
  an_ik : dict (list obj);
  an_drawOrder : list draw_order;
  an_bones : dict bone_timeline;
  an_slots : dict slot_timeline;
  an_events : list obj;
  an_transform : dict (list obj);
  an_path : dict (dict (list obj));
  an_deform : dict (dict (dict (list obj))) }.
(** [sk_attachments]: slot name -> attachment name -> attachment; None before the
    defaults are filled in if the JSON has none. *)
Record skin := mkSkin { sk_name : option string; sk_attachments : option (dict (dict obj)) }.
Record anim_data := mkData {
  d_bones : list obj;
  d_slots : list obj;
  d_skins : list skin;
  d_events : dict obj;
  d_ik : list obj;
  d_transform : list obj;
  d_path : list obj;
  d_animations : dict animation }.

(** slot.py:69-80 *)
Definition mk_slot_timeline (v : val) : res slot_timeline :=
  let! values := obj_values CSlotTimeline v in
  let! a := list_of (mk_obj CSlotKeyframe) (dget "attachment" values) in
  let! c := list_of (mk_obj CSlotKeyframe) (dget "color" values) in
  let! t := list_of (mk_obj CSlotKeyframe) (dget "twoColor" values) in
  let! _ := check_keys (attrs_of CSlotTimeline) (required CSlotTimeline) values in
  Ok (mkSlotTL a c t).

(** bone.py:123-140 *)
Definition mk_bone_timeline (v : val) : res bone_timeline :=
  let! values := obj_values CBoneTimeline v in
  let! r := list_of (mk_obj CBoneRS) (dget "rotate" values) in
  let! t := list_of (mk_obj CBoneTS) (dget "translate" values) in
  let! sc := list_of (mk_obj CBoneRS) (dget "scale" values) in
  let! sh := list_of (mk_obj CBoneTS) (dget "shear" values) in
  let! _ := check_keys (attrs_of CBoneTimeline) (required CBoneTimeline) values in
  Ok (mkBoneTL r t sc sh).

(** draworder.py:27-35 *)
Definition mk_draw_order (v : val) : res draw_order :=
  let! values := obj_values CDrawOrder v in
  let time := match dget "time" values with Some t => t | None => VInt 0 end in
  let! offs := list_of (mk_obj CDrawOffset) (dget "offsets" values) in
  let! _ := check_keys (attrs_of CDrawOrder) (required CDrawOrder) values in
  Ok (mkDrawOrder time offs).

(** animation.py:27-92 *)
Definition mk_animation (v : val) : res animation :=
  let! values := obj_values CAnimation v in
  let! ik := dict_of (fun x => list_of (mk_obj CIkTimeline) (Some x)) (dget "ik" values) in
  let! dro := list_of mk_draw_order (dget "drawOrder" values) in
  let! bones := dict_of mk_bone_timeline (dget "bones" values) in
  let! slots := dict_of mk_slot_timeline (dget "slots" values) in
  let! events := list_of (mk_obj CEventTimeline) (dget "events" values) in
  let! tr := dict_of (fun x => list_of (mk_obj CTransformTimeline) (Some x)) (dget "transform" values) in
  let! path := items_of (items_of (fun x => list_of (mk_obj CPathTimeline) (Some x)))
                 (match dget "path" values with Some x => x | None => vdict end) in
  let! deform := items_of (items_of (items_of (fun x => list_of (mk_obj CDeform) (Some x))))
                   (match dget "deform" values with Some x => x | None => vdict end) in
  let! _ := check_keys (attrs_of CAnimation) (required CAnimation) values in
  Ok (mkAnimation ik dro bones slots events tr path deform).

(** skin.py:33-54: the class of one attachment.  [skin_data.get("type")] *)
Definition attachment_class (type : val) : res cls :=
  match type with
  | VStr t =>
      if seqb t "path" then Ok CSkinPath
      else if seqb t "mesh" then Ok CSkinMesh
      else if seqb t "linkedmesh" then Ok CSkinLinkedMesh
      else if seqb t "point" then Ok CSkinPoint
      else if seqb t "clipping" then Ok CSkinClipping
      else if seqb t "boundingbox" then Ok CSkinBoundingBox
      else Err (EValue "wrong skin attachment type")
  | VNone => Ok CSkinAttachment
  | _ => Err (EValue "wrong skin attachment type")
  end.
Definition mk_attachment (v : val) : res obj :=
  let! d := as_dict v in
  let! c := attachment_class (get_or_none "type" d) in
  mk_obj c v.

(** skin.py:28-55 (parse_skin_attachment_data).  An empty list or string in place of a
    dictionary, which the code keeps as it is, is outside the model. *)
Definition mk_attachments_of {A} (f : val -> res A) (v : val) : res (dict A) :=
  match v with
  | VDict d => dmapM f d
  | VList [] | VStr EmptyString => Err (EUnmodelled "an empty list or string as attachments")
  | VList l => by_elements f l
  | VStr _ => Err (EType "string indices must be integers")
  | _ => Err (EType "object is not iterable")
  end.
Definition mk_attachments (v : val) : res (dict (dict obj)) :=
  mk_attachments_of (mk_attachments_of mk_attachment) v.

(** skin.py:62-71 *)
Definition mk_skin (v : val) : res skin :=
  let! values := obj_values CSkin38 v in
  let name := get_or_none "name" values in
  let atts := get_or_none "attachments" values in
  let! _ := check_keys (attrs_of CSkin38) (required CSkin38) values in
  let! a := match atts with
            | VNone => Ok None
            | _ => let! x := mk_attachments atts in Ok (Some x)
            end in
  if is_str_or_null name then Ok (mkSkin (val_str name) a)
  else Err (EUnmodelled "a name that is not a string").

(** spine_anim_data.py:60-86 (SpineAnimationData.__init__); [data] contains "skeleton". *)
Definition mk_data (data : dict val) : res anim_data :=
  let values := ddel "skeleton" data in
  let! bones := (let! x := dget_err "bones" values in list_of (mk_obj CBone) (Some x)) in
  let! slots := (let! x := dget_err "slots" values in list_of (mk_obj CSlot) (Some x)) in
  let! skins := (let! x := dget_err "skins" values in list_of mk_skin (Some x)) in
  let! events := dict_of (mk_obj CEvents) (dget "events" values) in
  let! ik := list_of (mk_obj CIk) (dget "ik" values) in
  let! tr := list_of (mk_obj CTransform) (dget "transform" values) in
  let! path := list_of (mk_obj CPath) (dget "path" values) in
  let! anims := dict_of mk_animation (dget "animations" values) in
  let! _ := check_keys (attrs_of CAnimData) (required CAnimData) values in
  Ok (mkData bones slots skins events ik tr path anims).

(** ** set_default_values (base_type.py:74-78, 97-106), element by element.  Attributes
    that hold lists or dictionaries of elements are never None, so only their items
    change. *)
Section Defaults.
  Variable ver : version.
  Notation sd := (obj_set_defaults ver).

  Definition slot_timeline_defaults (t : slot_timeline) : slot_timeline :=
    mkSlotTL (map sd (st_attachment t)) (map sd (st_color t)) (map sd (st_twoColor t)).
  Definition bone_timeline_defaults (t : bone_timeline) : bone_timeline :=
    mkBoneTL (map sd (bt_rotate t)) (map sd (bt_translate t)) (map sd (bt_scale t)) (map sd (bt_shear t)).
  Definition draw_order_defaults (d : draw_order) : draw_order :=
    mkDrawOrder (match do_time d, dget "time" (default_values CDrawOrder ver) with
                 | VNone, Some v => v
                 | v, _ => v
                 end)
      (map sd (do_offsets d)).
  Definition animation_defaults (a : animation) : animation :=
    mkAnimation (dmap (map sd) (an_ik a)) (map draw_order_defaults (an_drawOrder a))
      (dmap bone_timeline_defaults (an_bones a)) (dmap slot_timeline_defaults (an_slots a))
      (map sd (an_events a)) (dmap (map sd) (an_transform a))
      (dmap (dmap (map sd)) (an_path a)) (dmap (dmap (dmap (map sd))) (an_deform a)).
  Definition skin_defaults (s : skin) : skin :=
    mkSkin (match sk_name s with None => Some "" | n => n end)
      (match sk_attachments s with
       | None => Some []
       | Some a => Some (dmap (dmap sd) a)
       end).
  Definition data_defaults (d : anim_data) : anim_data :=
    mkData (map sd (d_bones d)) (map sd (d_slots d)) (map skin_defaults (d_skins d))
      (dmap sd (d_events d)) (map sd (d_ik d)) (map sd (d_transform d)) (map sd (d_path d))
      (dmap animation_defaults (d_animations d)).
End Defaults.

(** ** clean_unsupported_attributes (base_type.py:88-94, 124-136): visits every element
    of the data; the classes with nested elements list no unsupported attribute. *)
Section Clean.
  Variable f : obj -> obj.
  Definition slot_timeline_map (t : slot_timeline) : slot_timeline :=
    mkSlotTL (map f (st_attachment t)) (map f (st_color t)) (map f (st_twoColor t)).
  Definition bone_timeline_map (t : bone_timeline) : bone_timeline :=
    mkBoneTL (map f (bt_rotate t)) (map f (bt_translate t)) (map f (bt_scale t)) (map f (bt_shear t)).
  Definition draw_order_map (d : draw_order) : draw_order :=
    mkDrawOrder (do_time d) (map f (do_offsets d)).
  Definition animation_map (a : animation) : animation :=
    mkAnimation (dmap (map f) (an_ik a)) (map draw_order_map (an_drawOrder a))
      (dmap bone_timeline_map (an_bones a)) (dmap slot_timeline_map (an_slots a))
      (map f (an_events a)) (dmap (map f) (an_transform a))
      (dmap (dmap (map f)) (an_path a)) (dmap (dmap (dmap (map f))) (an_deform a)).
  Definition skin_map (s : skin) : skin :=
    mkSkin (sk_name s) (option_map (dmap (dmap f)) (sk_attachments s)).
  Definition data_map (d : anim_data) : anim_data :=
    mkData (map f (d_bones d)) (map f (d_slots d)) (map skin_map (d_skins d))
      (dmap f (d_events d)) (map f (d_ik d)) (map f (d_transform d)) (map f (d_path d))
      (dmap animation_map (d_animations d)).
End Clean.
Definition data_clean_unsupported (ver : version) (d : anim_data) : anim_data :=
  data_map (obj_clean_unsupported ver) d.

(** ** to_json (base_type.py:80-86, 109-121, 139-162) *)
Section Export.
  Variable ver : version.
  Notation oj := (obj_json ver).
  Definition jlist {A} (f : A -> val) (l : list A) : val := VList (map f l).
  Definition jdict {A} (f : A -> val) (d : dict A) : val := VDict (dmap f d).
  Definition export (c : cls) (attrs : dict val) : val :=
    VDict (export_attrs (default_values c ver) attrs).

  Definition slot_timeline_json (t : slot_timeline) : val :=
    export CSlotTimeline
      [("attachment", jlist oj (st_attachment t)); ("color", jlist oj (st_color t));
       ("twoColor", jlist oj (st_twoColor t))].
  Definition bone_timeline_json (t : bone_timeline) : val :=
    export CBoneTimeline
      [("rotate", jlist oj (bt_rotate t)); ("translate", jlist oj (bt_translate t));
       ("scale", jlist oj (bt_scale t)); ("shear", jlist oj (bt_shear t))].
  Definition draw_order_json (d : draw_order) : val :=
    export CDrawOrder [("time", do_time d); ("offsets", jlist oj (do_offsets d))].
  Definition animation_json (a : animation) : val :=
    export CAnimation
      [("ik", jdict (jlist oj) (an_ik a)); ("drawOrder", jlist draw_order_json (an_drawOrder a));
       ("bones", jdict bone_timeline_json (an_bones a)); ("slots", jdict slot_timeline_json (an_slots a));
       ("events", jlist oj (an_events a)); ("transform", jdict (jlist oj) (an_transform a));
       ("path", jdict (jdict (jlist oj)) (an_path a));
       ("deform", jdict (jdict (jdict (jlist oj))) (an_deform a))].
  Definition skin_json (s : skin) : val :=
    export CSkin38
      [("name", opt_val (sk_name s));
       ("attachments", match sk_attachments s with Some a => jdict (jdict oj) a | None => VNone end)].
  Definition data_attrs (d : anim_data) : dict val :=
    [("bones", jlist oj (d_bones d)); ("slots", jlist oj (d_slots d));
     ("skins", jlist skin_json (d_skins d)); ("events", jdict oj (d_events d));
     ("ik", jlist oj (d_ik d)); ("transform", jlist oj (d_transform d));
     ("path", jlist oj (d_path d)); ("animations", jdict animation_json (d_animations d))].
  Definition data_json (d : anim_data) : dict val :=
    export_attrs (default_values CAnimData ver) (data_attrs d).
End Export.

(** ** JsonSpineAnimationData, spine_anim_data.py:31-45 *)
Record document := mkDoc { doc_skeleton : dict val; doc_version : version; doc_data : anim_data }.

(** spine_anim_data.py:32-40.  [data] is the JSON document. *)
Definition load_document (data : val) : res document :=
  match data with
  | VDict d =>
      let! sk := dget_err "skeleton" d in
      let! spine := py_item sk "spine" in
      match spine with
      | VStr s =>
          let! ver := mk_version s in
          let! x := mk_data d in
          match sk with
          | VDict sk' => Ok (mkDoc sk' ver (data_defaults ver x))
          | _ => Err (EType "unreachable: sk[""spine""] succeeded")
          end
      | _ => Err (EAttr "object has no attribute 'split'")
      end
  | _ => Err (EType "indices must be integers")
  end.

(** spine_anim_data.py:42-45 (to_json_data) *)
Definition document_json (x : document) : val :=
  VDict (dset "skeleton" (VDict (doc_skeleton x)) (data_json (doc_version x) (doc_data x))).
