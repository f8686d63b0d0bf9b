{
 "tightened": {
  "auto:DrawOrder.v:py_insert:0 -> 1:748": [
   "C108_exact"
  ],
  "auto:DrawOrder.v:py_insert:0 -> 1:623": [
   "C108_exact"
  ],
  "auto:DrawOrder.v:py_insert:+ -> -": [
   "C108_exact"
  ],
  "auto:DrawOrder.v:py_insert:+ -> -:628": [
   "C108_exact"
  ],
  "auto:Graph.v:INPUT_ROOT:string \"INPUT_ROOT_NODE_TYPE\" changed": [
   "C20_paths",
   "C21_refused",
   "C21_returns"
  ],
  "auto:Graph.v:new_graph:0 -> 1": [
   "C106_counter"
  ],
  "auto:Graph.v:new_graph:0 -> 1:1801": [
   "C106_in_order"
  ],
  "auto:Files.v:image_json:string \"path\" changed": [
   "C102_read_back"
  ],
  "auto:Files.v:image_json:string \"scale\" changed": [
   "C102_read_back"
  ],
  "f4": [
   "C102_read_back"
  ],
  "auto:Files.v:graph_value:string \"slots\" changed": [
   "C103_read_back"
  ],
  "auto:Files.v:graph_value:string \"ik\" changed": [
   "C103_read_back"
  ],
  "auto:Files.v:graph_value:string \"bones\" changed": [
   "C103_read_back"
  ],
  "f5": [
   "C103_read_back"
  ],
  "auto:Heap.v:export:filter -> (fun (_ : _ -> bool) l => l)": [
   "C87_content"
  ],
  "auto:Heap.v:to_json_data:string \"skeleton\" changed": [
   "C87_content"
  ],
  "auto:JsonText.v:newline:* -> +": [
   "C117_document"
  ],
  "auto:JsonText.v:json_dumps:0 -> 1": [
   "C117_document"
  ],
  "auto:PyNum.v:dyadic:0 -> 1": [
   "C118_exact"
  ],
  "auto:SpineGraph.v:create_from_json_data:EType -> EValue": [
   "C26_not_object"
  ],
  "auto:SpineGraph.v:graph_to_json:EKey -> EType": [
   "C125_other_kind"
  ],
  "auto:Heap.v:subscript:EKey -> EType": [
   "C53_refuses"
  ],
  "auto:Heap.v:subscript:EType -> EValue": [
   "C53_refuses"
  ],
  "auto:Heap.v:subscript:EType -> EValue:3204": [
   "C53_refuses"
  ],
  "auto:AnimData.v:bone_scale_loop:EAttr -> EType": [
   "C152_attribute_error"
  ],
  "auto:Traverse.v:not_supported:EType -> EValue": [
   "C149_raise",
   "C149_clean"
  ],
  "auto:Cast.v:py_float_of:EType -> EValue": [
   "C96_refused"
  ],
  "auto:Cast.v:py_float_of:EValue -> EType": [
   "C96_refused"
  ],
  "auto:Cast.v:py_int_of_float:EValue -> EType": [
   "C96_refused"
  ],
  "auto:Cast.v:py_int_of_float:EOverflow -> EType": [
   "C96_refused"
  ],
  "auto:Cast.v:py_int_of_float:branch S754_nan gives Err EOverflow": [
   "C96_refused"
  ],
  "auto:Cast.v:cast_element:EValue -> EType": [
   "C96_refused"
  ],
  "e8": [
   "C133_attachments"
  ]
 },
 "notes": {
  "f5": "Got through when first tried; caught since the theorems were tightened (u8).",
  "auto:Version.v:cmp_str:arguments of op exchanged: a, b": "Nothing uses this definition any more: VersionOps.compare_with is the model of comparisons with a text.",
  "u1": "Nothing uses this definition any more: VersionOps.compare_with is the model of comparisons with a text.",
  "auto:SpineGraph.v:create_from_json_data:EType -> EValue": "Got through when first tried; caught since the theorems were tightened (u2).",
  "auto:SpineGraph.v:graph_to_json:EKey -> EType": "Got through when first tried; caught since the theorems were tightened (u3).",
  "auto:Heap.v:subscript:EKey -> EType": "Got through when first tried; caught since the theorems were tightened (u4).",
  "auto:Heap.v:subscript:EType -> EValue": "Got through when first tried; caught since the theorems were tightened (u5).",
  "auto:Heap.v:subscript:EType -> EValue:3204": "Got through when first tried; caught since the theorems were tightened (u6).",
  "auto:AnimData.v:bone_scale_loop:EAttr -> EType": "Got through when first tried; caught since the theorems were tightened (u7).",
  "auto:Traverse.v:not_supported:EType -> EValue": "Got through when first tried; caught since the theorems were tightened (r2).",
  "auto:Version.v:SPINE_3_7:3 -> 4": "The edit cannot be observed through the API: nothing in the library reads the constant.",
  "auto:Version.v:SPINE_3_7:7 -> 8": "The edit cannot be observed through the API: nothing in the library reads the constant.",
  "auto:Version.v:SPINE_3_7:arguments of mkVersion exchanged: 3, 7": "The edit cannot be observed through the API: nothing in the library reads the constant.",
  "auto:Version.v:SPINE_3_7:arguments of mkVersion exchanged: 7, 0": "The edit cannot be observed through the API: nothing in the library reads the constant.",
  "auto:AnimData.v:bone_scale_loop:string \"'NoneType' object has no attribute 'name'\" changed": "The edit cannot be observed through the API: the text of an exception is not part of any claim.",
  "auto:AnimData.v:get_slot_custom_scale:string \"'NoneType' object has no attribute 'bone'\" changed": "The edit cannot be observed through the API: the text of an exception is not part of any claim.",
  "auto:Editor.v:scale_root:string \"'NoneType' object has no attribute 'scale'\" changed": "The edit cannot be observed through the API: the text of an exception is not part of any claim.",
  "auto:SpineGraph.v:T_PATH:string \"PATH\" changed": "The edit cannot be observed through the API: the library makes no nodes of this type.",
  "auto:SpineGraph.v:T_DEFAULT:string \"DEFAULT\" changed": "The edit cannot be observed through the API: the library makes no nodes of this type.",
  "auto:SpineGraph.v:graph_to_json:string \"type\" changed": "The edit cannot be observed through the API: the text of an exception is not part of any claim.",
  "auto:Graph.v:seq_visit:string \"'NoneType' object has no attribute 'id'\" changed": "The edit cannot be observed through the API: the text of an exception is not part of any claim.",
  "auto:Classes.v:load_document:string \"object has no attribute 'split'\" changed": "The edit cannot be observed through the API: the text of an exception is not part of any claim.",
  "auto:Classes.v:dict_of:branch Some (VStr _) gives Err (EType \"object is not iterable\")": "The edited branch is one the model leaves out (EUnmodelled).",
  "auto:PyNum.v:dyadic:0 -> 1:851": "The edit cannot be observed through the API: zero times any power of two is zero.",
  "auto:Repr.v:repr_float:branch S754_infinity s gives (if s then [\"-\"%char] else []) ++ chars \"0.0\"": "Stopped by the time limit.",
  "auto:Repr.v:layout:1 -> 2": "Stopped by the time limit.",
  "auto:VersionOps.v:with_operand:string \"'NotImplementedType' object has no attribute 'major'\" changed": "The edit cannot be observed through the API: the text of an exception is not part of any claim.",
  "auto:DrawOrder.v:as_int:EType -> EValue": "Stopped by the time limit.",
  "auto:Version.v:SPINE_3_8:arguments of mkVersion exchanged: 3, 8": "Stopped by the time limit.",
  "auto:AnimData.v:links_to:arguments of py_eq exchanged: (oget o \"skin\"), (VStr skin_name)": "The edit cannot be observed through the API: equality is symmetric here.",
  "auto:Editor.v:add_image:EAttr -> EType": "Stopped by the time limit.",
  "auto:Editor.v:add_image:EType -> EValue": "Stopped by the time limit.",
  "auto:SpineGraph.v:spine_factory:left out of a list: T_ATTACHMENT": "Stopped by the time limit.",
  "auto:SpineGraph.v:spine_factory:left out of a list: T_PATH": "The edit cannot be observed through the API: the library makes no nodes of this type.",
  "auto:SpineGraph.v:spine_factory:left out of a list: T_PATH:1334": "The edit cannot be observed through the API: the library makes no nodes of this type.",
  "auto:SpineGraph.v:of_type:arguments of ntype_eqb exchanged: (n_type n), (NTStr type_name)": "The edit cannot be observed through the API: equality is symmetric here.",
  "auto:SpineGraph.v:remove_rounds:EDiverges -> EType": "The edit cannot be observed through the API: the branch is out of fuel, which the theorems exclude or show not to happen.",
  "auto:Graph.v:WRONG_NODE_ID_TYPE:EType -> EValue": "Stopped by the time limit.",
  "auto:Graph.v:generate_unique_id:EDiverges -> EType": "The edit cannot be observed through the API: the branch is out of fuel, which the theorems exclude or show not to happen.",
  "auto:Graph.v:add_parent:EValue -> EType": "The edit cannot be observed through the API: the branch cannot be reached from a graph made by the library.",
  "auto:Graph.v:unlink:EKey -> EType": "The edit cannot be observed through the API: the branch cannot be reached from a graph made by the library.",
  "auto:Graph.v:gn_visit:EDiverges -> EType": "The edit cannot be observed through the API: the branch is out of fuel, which the theorems exclude or show not to happen.",
  "auto:Graph.v:seq_visit:EDiverges -> EType": "The edit cannot be observed through the API: the branch is out of fuel, which the theorems exclude or show not to happen.",
  "auto:Graph.v:seq_visit:EAttr -> EType": "The edit cannot be observed through the API: the branch cannot be reached from a graph made by the library.",
  "auto:Graph.v:cyc_visit:EDiverges -> EType": "The edit cannot be observed through the API: the branch is out of fuel, which the theorems exclude or show not to happen.",
  "auto:Graph.v:look_for_paths:EKey -> EType": "The edit cannot be observed through the API: the branch cannot be reached from a graph made by the library.",
  "auto:Graph.v:look_for_paths:EDiverges -> EType": "The edit cannot be observed through the API: the branch is out of fuel, which the theorems exclude or show not to happen.",
  "auto:Classes.v:attrs_of:left out of a list: \"vertexCount\"": "Stopped by the time limit.",
  "auto:Classes.v:attrs_of:left out of a list: \"light\"": "Stopped by the time limit.",
  "auto:Classes.v:attrs_of:left out of a list: \"curve\"": "Stopped by the time limit.",
  "auto:Heap.v:load:EDiverges -> EType": "The edit cannot be observed through the API: the branch is out of fuel, which the theorems exclude or show not to happen.",
  "auto:Heap.v:load:EDiverges -> EType:3741": "The edit cannot be observed through the API: the branch is out of fuel, which the theorems exclude or show not to happen.",
  "auto:JsonText.v:scan_once:EDiverges -> EType": "The edit cannot be observed through the API: the branch is out of fuel, which the theorems exclude or show not to happen.",
  "auto:JsonText.v:members:EDiverges -> EType": "The edit cannot be observed through the API: the branch is out of fuel, which the theorems exclude or show not to happen.",
  "auto:JsonText.v:elements:EDiverges -> EType": "The edit cannot be observed through the API: the branch is out of fuel, which the theorems exclude or show not to happen.",
  "auto:Files.v:os_stat:branch Some (File _), true gives Err (EOs FileNotFound)": "The edit cannot be observed through the API: the callers treat both errors alike.",
  "auto:Files.v:makedirs:EDiverges -> EType": "The edit cannot be observed through the API: the branch is out of fuel, which the theorems exclude or show not to happen.",
  "auto:PyNum.v:dyadic:branch S754_finite s m e gives Some (0, 0)%Z": "Stopped by the time limit.",
  "auto:PyNum.v:dyadic:Some (0, 0) -> None": "Stopped by the time limit.",
  "p25": "The edit is equivalent: no claim becomes false, only the proof of mul_int_float fails."
 }
}