(** Generated by tools/gen_tables.py from the class declarations in
    /repo/spine_json_lib/data (read as text): a second transcription of the class tables,
    made independently of Classes.v. *)
From Verif Require Import PyBase PyNum Json.
From Coq Require Import SpecFloat.
Open Scope string_scope.

Record row := mkRow {
  r_class : string;                       (* name of the Python class *)
  r_attrs : list string;                  (* self.k = ... in __init__, in order *)
  r_old : list (string * val);            (* DEFAULT_VALUES *)
  r_38 : list (string * val);             (* SPINE_3_8_DEFAULT_VALUES *)
  r_required : list string;               (* REQUIRED *)
  r_unsupported : option (list string) }. (* UNSUPPORTED_VALUES_OLD_VERSION *)

Definition rows : list row := [
  (* data_types/animation.py:14 *)
  mkRow "Animation"
    ["ik"; "drawOrder"; "bones"; "slots"; "events"; "transform"; "path"; "deform"]
    [("ik", VDict []); ("drawOrder", VList []); ("bones", VDict []); ("slots", VDict []); ("events", VList []); ("transform", VDict []); ("deform", VDict []); ("path", VDict [])]
    [("ik", VDict []); ("drawOrder", VList []); ("bones", VDict []); ("slots", VDict []); ("events", VList []); ("transform", VDict []); ("deform", VDict []); ("path", VDict [])]
    []
    None;
  (* data_types/bone.py:7 *)
  mkRow "Bone"
    ["name"; "parent"; "color"; "scaleX"; "transform"; "shearY"; "scaleY"; "inheritRotation"; "length"; "y"; "x"; "rotation"; "shearX"; "inheritScale"]
    [("x", VInt 0); ("y", VInt 0); ("scaleX", VFloat (S754_finite false 4503599627370496 (-52))); ("scaleY", VFloat (S754_finite false 4503599627370496 (-52))); ("shearX", VInt 0); ("shearY", VInt 0); ("transform", VStr "normal"); ("inheritRotation", VBool false); ("rotation", VInt 0); ("length", VInt 0); ("inheritScale", VBool false)]
    [("x", VInt 0); ("y", VInt 0); ("scaleX", VFloat (S754_finite false 4503599627370496 (-52))); ("scaleY", VFloat (S754_finite false 4503599627370496 (-52))); ("shearX", VInt 0); ("shearY", VInt 0); ("transform", VStr "normal"); ("inheritRotation", VBool false); ("rotation", VInt 0); ("length", VInt 0); ("inheritScale", VBool false)]
    ["name"]
    None;
  (* data_types/bone.py:54 *)
  mkRow "BoneTranslateAndShearKeyframe"
    ["time"; "curve"; "angle"; "x"; "y"; "c2"; "c3"; "c4"]
    [("curve", VList [])]
    [("curve", VList []); ("angle", VInt 0); ("time", VInt 0); ("x", VInt 0); ("y", VInt 0); ("c2", VInt 0); ("c3", VInt 1); ("c4", VInt 1)]
    []
    (Some ["c2"; "c3"; "c4"]);
  (* data_types/bone.py:84 *)
  mkRow "BoneRotateAndScaleKeyframe"
    ["time"; "curve"; "angle"; "x"; "y"; "c2"; "c3"; "c4"]
    [("curve", VList [])]
    [("curve", VList []); ("angle", VInt 0); ("x", VInt 1); ("y", VInt 1); ("time", VInt 0); ("c2", VInt 0); ("c3", VInt 1); ("c4", VInt 1)]
    []
    (Some ["c2"; "c3"; "c4"]);
  (* data_types/bone.py:114 *)
  mkRow "BoneTimeline"
    ["rotate"; "translate"; "scale"; "shear"]
    [("rotate", VList []); ("translate", VList []); ("scale", VList []); ("shear", VList [])]
    [("rotate", VList []); ("translate", VList []); ("scale", VList []); ("shear", VList [])]
    []
    None;
  (* data_types/deform.py:6 *)
  mkRow "Deform"
    ["vertices"; "time"; "curve"; "offset"; "c2"; "c3"; "c4"]
    [("vertices", VList []); ("curve", VList [])]
    [("time", VInt 0); ("vertices", VList []); ("curve", VList []); ("offset", VList []); ("c2", VInt 0); ("c3", VInt 1); ("c4", VInt 1)]
    []
    None;
  (* data_types/draworder.py:8 *)
  mkRow "DrawOrderTimelineOffset"
    ["slot"; "offset"]
    [("slot", VStr "")]
    [("slot", VStr "")]
    ["offset"]
    None;
  (* data_types/draworder.py:23 *)
  mkRow "DrawOrderTimeline"
    ["time"; "offsets"]
    [("offset", VList [])]
    [("time", VInt 0); ("offset", VList [])]
    []
    None;
  (* data_types/events.py:6 *)
  mkRow "Events"
    ["int"; "float"; "string"]
    [("int", VInt 0); ("float", VInt 0); ("string", VStr "")]
    [("int", VInt 0); ("float", VInt 0); ("string", VStr "")]
    []
    None;
  (* data_types/events.py:20 *)
  mkRow "EventTimeline"
    ["time"; "name"; "int"; "float"; "string"; "audio"; "volume"; "balance"]
    [("name", VStr ""); ("int", VInt 0); ("float", VInt 0); ("string", VStr "")]
    [("time", VInt 0); ("name", VStr ""); ("int", VInt 0); ("float", VInt 0); ("string", VStr ""); ("audio", VStr ""); ("volume", VInt 1); ("balance", VInt 0)]
    []
    None;
  (* data_types/ik.py:6 *)
  mkRow "Ik"
    ["name"; "order"; "bones"; "target"; "mix"; "bendPositive"; "softness"; "compress"; "stretch"; "uniform"]
    [("name", VStr ""); ("order", VInt 0); ("bones", VList []); ("target", VStr ""); ("bendPositive", VBool true); ("softness", VInt 0); ("compress", VBool false); ("stretch", VBool false); ("uniform", VBool false)]
    [("name", VStr ""); ("order", VInt 0); ("bones", VList []); ("target", VStr ""); ("bendPositive", VBool true); ("softness", VInt 0); ("compress", VBool false); ("stretch", VBool false); ("uniform", VBool false)]
    []
    None;
  (* data_types/ik.py:37 *)
  mkRow "IkTimeline"
    ["time"; "mix"; "bendPositive"; "curve"; "c2"; "c3"; "c4"; "compress"; "stretch"]
    [("bendPositive", VBool true); ("curve", VList [])]
    [("time", VInt 0); ("bendPositive", VBool true); ("stretch", VBool false); ("curve", VList []); ("compress", VBool false); ("c2", VInt 0); ("c3", VInt 1); ("c4", VInt 1)]
    []
    (Some ["c2"; "c3"; "c4"]);
  (* data_types/path.py:4 *)
  mkRow "Path"
    ["name"; "order"; "skin"; "bones"; "target"; "positionMode"; "spacingMode"; "rotateMode"; "rotation"; "position"; "spacing"; "rotateMix"; "translateMix"]
    [("name", VStr ""); ("bones", VList []); ("target", VStr ""); ("positionMode", VStr ""); ("spacingMode", VStr ""); ("rotateMode", VStr ""); ("rotation", VInt 0); ("position", VInt 0); ("spacing", VInt 1); ("rotateMix", VInt 1); ("translateMix", VInt 1); ("skin", VBool false)]
    [("name", VStr ""); ("bones", VList []); ("target", VStr ""); ("positionMode", VStr ""); ("spacingMode", VStr ""); ("rotateMode", VStr ""); ("rotation", VInt 0); ("position", VInt 0); ("spacing", VInt 1); ("rotateMix", VInt 1); ("translateMix", VInt 1); ("skin", VBool false)]
    []
    None;
  (* data_types/path.py:41 *)
  mkRow "PathTimeline"
    ["time"; "position"; "spacing"; "rotateMix"; "translateMix"; "curve"; "c2"; "c3"; "c4"]
    [("position", VInt 0); ("spacing", VInt 1); ("rotateMix", VInt 1); ("translateMix", VInt 1)]
    [("position", VInt 0); ("spacing", VInt 1); ("rotateMix", VInt 1); ("translateMix", VInt 1); ("curve", VList []); ("c2", VInt 0); ("c3", VInt 1); ("c4", VInt 1)]
    []
    None;
  (* data_types/skin.py:58 *)
  mkRow "Skin38"
    ["name"; "attachments"]
    [("name", VStr ""); ("attachments", VDict [])]
    [("name", VStr ""); ("attachments", VDict [])]
    []
    None;
  (* data_types/skin.py:74 *)
  mkRow "SkinAttachment"
    ["x"; "y"; "rotation"; "width"; "height"; "scaleX"; "scaleY"; "name"; "path"; "color"]
    [("x", VInt 0); ("y", VInt 0); ("rotation", VInt 0); ("scaleX", VFloat (S754_finite false 4503599627370496 (-52))); ("scaleY", VFloat (S754_finite false 4503599627370496 (-52)))]
    [("x", VInt 0); ("y", VInt 0); ("rotation", VInt 0); ("scaleX", VFloat (S754_finite false 4503599627370496 (-52))); ("scaleY", VFloat (S754_finite false 4503599627370496 (-52)))]
    []
    None;
  (* data_types/skin.py:105 *)
  mkRow "SkinMesh"
    ["hull"; "uvs"; "vertices"; "height"; "width"; "edges"; "type"; "triangles"; "name"; "path"; "color"]
    [("uvs", VList []); ("vertices", VList []); ("edges", VList []); ("triangles", VList [])]
    [("uvs", VList []); ("vertices", VList []); ("edges", VList []); ("triangles", VList [])]
    []
    None;
  (* data_types/skin.py:132 *)
  mkRow "SkinPath"
    ["lengths"; "vertexCount"; "type"; "name"; "vertices"; "color"; "closed"; "constantSpeed"]
    [("lengths", VList []); ("vertexCount", VInt 0); ("vertices", VList []); ("constantSpeed", VBool true); ("closed", VBool false)]
    [("lengths", VList []); ("vertexCount", VInt 0); ("vertices", VList []); ("constantSpeed", VBool true); ("closed", VBool false)]
    []
    None;
  (* data_types/skin.py:157 *)
  mkRow "SkinLinkedMesh"
    ["path"; "height"; "width"; "name"; "parent"; "deform"; "color"; "skin"; "type"]
    []
    [("deform", VBool true)]
    []
    None;
  (* data_types/skin.py:177 *)
  mkRow "SkinBoundingBox"
    ["vertexCount"; "vertices"; "color"]
    []
    []
    []
    None;
  (* data_types/skin.py:191 *)
  mkRow "SkinPoint"
    ["x"; "y"; "rotation"; "color"]
    [("x", VInt 0); ("y", VInt 0); ("rotation", VInt 0)]
    [("x", VInt 0); ("y", VInt 0); ("rotation", VInt 0)]
    []
    None;
  (* data_types/skin.py:206 *)
  mkRow "SkinClipping"
    ["end"; "vertexCount"; "vertices"; "color"]
    [("vertexCount", VInt 0); ("vertices", VList [])]
    [("vertexCount", VInt 0); ("vertices", VList [])]
    []
    None;
  (* data_types/slot.py:7 *)
  mkRow "Slot"
    ["name"; "bone"; "attachment"; "color"; "dark"; "blend"]
    []
    []
    ["name"; "bone"]
    None;
  (* data_types/slot.py:29 *)
  mkRow "SlotKeyframe"
    ["name"; "time"; "curve"; "color"; "dark"; "light"; "c2"; "c3"; "c4"]
    [("curve", VList []); ("name", VNone)]
    [("curve", VList []); ("name", VNone); ("time", VInt 0); ("c2", VInt 0); ("c3", VInt 1); ("c4", VInt 1)]
    []
    (Some ["c2"; "c3"; "c4"]);
  (* data_types/slot.py:61 *)
  mkRow "SlotTimeline"
    ["attachment"; "color"; "twoColor"]
    [("attachment", VList []); ("color", VList []); ("twoColor", VList [])]
    [("attachment", VList []); ("color", VList []); ("twoColor", VList [])]
    []
    None;
  (* data_types/transform.py:6 *)
  mkRow "Transform"
    ["name"; "order"; "bone"; "bones"; "target"; "rotation"; "x"; "y"; "scaleX"; "scaleY"; "shearX"; "shearY"; "rotateMix"; "translateMix"; "scaleMix"; "shearMix"; "local"; "relative"]
    [("name", VStr ""); ("order", VInt 0); ("bone", VStr ""); ("target", VStr ""); ("rotation", VInt 0); ("x", VInt 0); ("y", VInt 0); ("scaleX", VFloat (S754_finite false 4503599627370496 (-52))); ("scaleY", VFloat (S754_finite false 4503599627370496 (-52))); ("shearX", VInt 0); ("shearY", VInt 0)]
    [("name", VStr ""); ("order", VInt 0); ("bone", VStr ""); ("target", VStr ""); ("rotation", VInt 0); ("x", VInt 0); ("y", VInt 0); ("scaleX", VFloat (S754_finite false 4503599627370496 (-52))); ("scaleY", VFloat (S754_finite false 4503599627370496 (-52))); ("shearX", VInt 0); ("shearY", VInt 0)]
    []
    None;
  (* data_types/transform.py:47 *)
  mkRow "TransformTimeline"
    ["time"; "rotateMix"; "translateMix"; "scaleMix"; "shearMix"; "curve"; "c2"; "c3"; "c4"]
    [("curve", VList [])]
    [("curve", VList []); ("time", VInt 0); ("c2", VInt 0); ("c3", VInt 1); ("c4", VInt 1)]
    []
    None;
  (* spine_anim_data.py:48 *)
  mkRow "SpineAnimationData"
    ["bones"; "slots"; "skins"; "events"; "ik"; "transform"; "path"; "animations"]
    [("bones", VList []); ("slots", VList []); ("events", VDict []); ("ik", VList []); ("transform", VList []); ("path", VList []); ("animations", VDict [])]
    [("bones", VList []); ("slots", VList []); ("events", VDict []); ("ik", VList []); ("transform", VList []); ("path", VList []); ("animations", VDict [])]
    []
    None
].

Definition row_of (name : string) : row :=
  match find (fun r => String.eqb (r_class r) name) rows with
  | Some r => r
  | None => mkRow "" [] [] [] [] None
  end.
