{
 "claims": [
  {
   "property": "C01",
   "status": "proved",
   "theorems": [
    "C01_parse_two",
    "C01_parse_three",
    "C01_wrong_number_of_components",
    "C01_only_ValueError"
   ],
   "note": "Versions with two or three components parse exactly; a wrong number of dots, and every other refusal, is a ValueError."
  },
  {
   "property": "C02",
   "status": "partial",
   "theorems": [
    "C02_comparisons_sound_partial",
    "C02_same_minor_partial",
    "C02_component_wise",
    "C02_le_partial_order",
    "C02_refuted",
    "C02_doc_example_refuted"
   ],
   "note": "False as stated (component-wise operators: 4.0 >= 3.8 is False). Proved: true comparisons are right, exact characterisation, <= and >= exact within one minor version."
  },
  {
   "property": "C04",
   "status": "proved",
   "theorems": [
    "C04_scale_tag",
    "C04_no_bracket",
    "C04_scanner_is_findall",
    "C04_same_tags_same_result",
    "C04_tag_found_anywhere"
   ],
   "note": "Against a relational definition of the regular expression and of findall."
  },
  {
   "property": "C05",
   "status": "proved",
   "theorems": [
    "C05_exact",
    "C05_unsupported_tag",
    "C05_repeated_tag",
    "C05_not_a_number",
    "C05_only_scale"
   ],
   "note": "Complete case analysis of the result from the list of tags."
  },
  {
   "property": "C03",
   "status": "partial",
   "theorems": [
    "C03_clean_partial",
    "C03_never_cleans",
    "C03_refuted"
   ],
   "note": "False as stated: the test version < 3.8 is component-wise and holds for no real version, so nothing is ever cleaned (proved); the rest holds."
  },
  {
   "property": "C06",
   "status": "proved",
   "theorems": [
    "C06_unknown_refused",
    "C06_values_kept",
    "C06_slot_timeline",
    "C06_bone_timeline",
    "C06_draw_order",
    "C06_animation",
    "C06_skin",
    "C06_document"
   ],
   "note": "All 24 plain classes and all nested classes."
  },
  {
   "property": "C07",
   "status": "proved",
   "theorems": [
    "C07_exact",
    "C07_never_without",
    "C07_declared"
   ],
   "note": "All plain classes; C07_declared against the tables read from the source by tools/gen_tables.py."
  },
  {
   "property": "C08",
   "status": "partial",
   "theorems": [
    "C08_export_exact",
    "C08_nested",
    "C08_refuted"
   ],
   "note": "False as stated for one attribute (a slot keyframe's null name is exported); exact characterisation proved for every class and version."
  },
  {
   "property": "C09",
   "status": "partial",
   "theorems": [
    "C09_reload_exact",
    "C09_export_stable_partial",
    "C09_reload_refuted",
    "C09_stable_refuted"
   ],
   "note": "False as stated (no bones / no slots / null required attributes are exported unreadably; old-version null draw order times); exact condition for readability and stability otherwise proved for all documents."
  },
  {
   "property": "C10",
   "status": "partial",
   "theorems": [
    "C10_element",
    "C10_reload_keeps_partial",
    "C10_refuted"
   ],
   "note": "Proved for every plain element and version, and for whole documents without null draw order times (or version >= 3.8); the excluded case is refuted."
  },
  {
   "property": "C11",
   "status": "partial",
   "theorems": [
    "C11_loads_partial",
    "C11_refuted"
   ],
   "note": "False as stated: point, clipping, boundingbox and region are always refused (proved); mesh, path, linkedmesh and untyped load with all values."
  },
  {
   "property": "C12",
   "status": "proved",
   "theorems": [
    "C12_generated_is_fresh",
    "C12_never_repeats"
   ],
   "note": "For every graph and every history of calls, failing calls included."
  },
  {
   "property": "C13",
   "status": "proved",
   "theorems": [
    "C13_lookup",
    "C13_add_in_use",
    "C13_add_fresh",
    "C13_add_non_string",
    "C13_non_string",
    "C13_remove_absent"
   ],
   "note": "get_node after any history against the trace of calls and results."
  },
  {
   "property": "C14",
   "status": "proved",
   "theorems": [
    "C14_edges"
   ],
   "note": "After any history with any node factory."
  },
  {
   "property": "C15",
   "status": "proved",
   "theorems": [
    "C15_add_edge_when",
    "C15_add_edge_effect",
    "C15_add_edge_fails",
    "C15_remove_edge_when",
    "C15_remove_edge_effect",
    "C15_remove_edge_fails"
   ],
   "note": "Exact success conditions, exact effect, no effect on failure."
  },
  {
   "property": "C16",
   "status": "proved",
   "theorems": [
    "C16_remove_when",
    "C16_remove_effect"
   ],
   "note": "Exact effect on every node, including the order of children and parents."
  },
  {
   "property": "C17",
   "status": "proved",
   "theorems": [
    "C17_heads",
    "C17_tails"
   ],
   "note": "On all reachable graphs, cyclic or not."
  },
  {
   "property": "C18",
   "status": "proved",
   "theorems": [
    "C18_circular"
   ],
   "note": "Reported exactly when there is a cycle; a whole cycle is in the report."
  },
  {
   "property": "C19",
   "status": "partial",
   "theorems": [
    "C19_leads_partial",
    "C19_refuted"
   ],
   "note": "False as stated: nodes leading to a cycle are reported too. Proved: every reported id leads to a cycle (C59)."
  },
  {
   "property": "C20",
   "status": "proved",
   "theorems": [
    "C20_paths"
   ],
   "note": "Exactly the directed paths of at most d nodes, each once."
  },
  {
   "property": "C21",
   "status": "proved",
   "theorems": [
    "C21_refused",
    "C21_returns"
   ],
   "note": "ValueError exactly in the listed cases."
  },
  {
   "property": "C22",
   "status": "partial",
   "theorems": [
    "C22_order_partial",
    "C22_covers_partial",
    "C22_forest_partial",
    "C22_refuted",
    "C22_refuted_order"
   ],
   "note": "False as stated: with two connected heads a head is listed twice, and a node can come before its parent even with one head. Proved: exact contents and multiplicities, and the statement for forests (C60, C61)."
  },
  {
   "property": "C54",
   "status": "proved",
   "theorems": [
    "C54_component_wise",
    "C54_partial_order"
   ],
   "note": "Exact."
  },
  {
   "property": "C55",
   "status": "proved",
   "theorems": [
    "C55_never_cleans"
   ],
   "note": "Exact."
  },
  {
   "property": "C56",
   "status": "proved",
   "theorems": [
    "C56_export_exact"
   ],
   "note": "Exact for every plain class and version."
  },
  {
   "property": "C57",
   "status": "proved",
   "theorems": [
    "C57_reload_exact"
   ],
   "note": "Exact."
  },
  {
   "property": "C58",
   "status": "proved",
   "theorems": [
    "C58_loads",
    "C58_refused"
   ],
   "note": "All attachment types."
  },
  {
   "property": "C59",
   "status": "proved",
   "theorems": [
    "C59_leads"
   ],
   "note": "Exact replacement of C19."
  },
  {
   "property": "C60",
   "status": "proved",
   "theorems": [
    "C60_order"
   ],
   "note": "Exact contents and multiplicities of the order."
  },
  {
   "property": "C61",
   "status": "proved",
   "theorems": [
    "C61_forest"
   ],
   "note": "Topological on forests."
  },
  {
   "property": "C37",
   "status": "proved",
   "theorems": [
    "C37_in_range",
    "C37_when",
    "C37_any"
   ],
   "note": "For any offsets (even invalid ones) and slots with distinct names; exact condition for success."
  },
  {
   "property": "C38",
   "status": "partial",
   "theorems": [
    "C38_order_partial",
    "C38_moved_partial",
    "C38_refuted"
   ],
   "note": "False as stated: a slot whose new offset is 0 is dropped from the keyframe, which can swap it with unlisted slots (witness with valid non-zero offsets). Exact condition proved (C62)."
  },
  {
   "property": "C39",
   "status": "proved",
   "theorems": [
    "C39_spine_rule"
   ],
   "note": "The result is the unique list obeying the Spine rule."
  },
  {
   "property": "C62",
   "status": "proved",
   "theorems": [
    "C62_order_kept_iff",
    "C62_moved"
   ],
   "note": "Exact replacement of C38."
  },
  {
   "property": "C23",
   "status": "partial",
   "theorems": [
    "C23_ids_apart",
    "C23_back_refuted",
    "C63_back_exact"
   ],
   "note": "The first half is proved; the second is false as stated (a name containing _SLOT does not come back); exact condition in C63."
  },
  {
   "property": "C24",
   "status": "proved",
   "theorems": [
    "C24_round_trip"
   ],
   "note": "For every document whose graph can be built, of any shape."
  },
  {
   "property": "C25",
   "status": "proved",
   "theorems": [
    "C25_edges",
    "C25_nodes",
    "C25_reachable"
   ],
   "note": "The edges and nodes are exactly the references and elements of the document (a bone's parent edge requires its parent to be listed before it)."
  },
  {
   "property": "C26",
   "status": "proved",
   "theorems": [
    "C26_build_iff",
    "C26_value_error",
    "C26_not_object"
   ],
   "note": "Exact condition for documents of the expected shape; besides repeated names only a bone that is its own parent is refused."
  },
  {
   "property": "C27",
   "status": "proved",
   "theorems": [
    "C27_leafs",
    "C27_heads"
   ],
   "note": "For every reachable graph; the removed nodes are exactly the least set closed under the rule, the rest is unchanged."
  },
  {
   "property": "C63",
   "status": "proved",
   "theorems": [
    "C63_back_exact"
   ],
   "note": "Exact replacement of the second half of C23."
  },
  {
   "property": "C28",
   "status": "proved",
   "theorems": [
    "C28_eight_digits",
    "C28_no_color",
    "C28_returns",
    "C28_hex_readable"
   ],
   "note": "Every slot list with distinct slot names (as any loadable document has)."
  },
  {
   "property": "C29",
   "status": "proved",
   "theorems": [
    "C29_unused_slots"
   ],
   "note": "Exact, for data with distinct slot names (the editor refuses other documents, C26)."
  },
  {
   "property": "C30",
   "status": "proved",
   "theorems": [
    "C30_used_kept"
   ],
   "note": "For data with distinct slot names; exact characterisation in C65."
  },
  {
   "property": "C32",
   "status": "partial",
   "theorems": [
    "C32_analysis_returns_partial",
    "C32_refuted"
   ],
   "note": "False as stated: an animation without slot timelines raises TypeError if nothing is visible in the setup pose. Exact condition in C64."
  },
  {
   "property": "C33",
   "status": "proved",
   "theorems": [
    "C33_unknown_skin",
    "C33_known_skin"
   ],
   "note": "Complete description of the new data, on success and on failure."
  },
  {
   "property": "C34",
   "status": "partial",
   "theorems": [
    "C34_copied_partial",
    "C34_refuted",
    "C34_refuted_parent"
   ],
   "note": "False as stated: the copy is of the attachment with the same key, not of the parent mesh. Exact statement in C66."
  },
  {
   "property": "C35",
   "status": "proved",
   "theorems": [
    "C35_scale"
   ],
   "note": "Exact, success and value, any depth."
  },
  {
   "property": "C36",
   "status": "partial",
   "theorems": [
    "C36_no_cycle_partial",
    "C36_refuted"
   ],
   "note": "False as stated: a cycle of parent bones makes loading run forever. Exact statement in C68."
  },
  {
   "property": "C64",
   "status": "proved",
   "theorems": [
    "C64_returns"
   ],
   "note": "Exact replacement of C32."
  },
  {
   "property": "C65",
   "status": "proved",
   "theorems": [
    "C65_reported"
   ],
   "note": "Exact."
  },
  {
   "property": "C66",
   "status": "proved",
   "theorems": [
    "C33_known_skin",
    "C66_linked_meshes",
    "C66_no_link_left"
   ],
   "note": "Exact replacement of C34."
  },
  {
   "property": "C67",
   "status": "proved",
   "theorems": [
    "C67_reports"
   ],
   "note": "Exact, for skins whose dictionaries have each key once (as every JSON document's have)."
  },
  {
   "property": "C68",
   "status": "proved",
   "theorems": [
    "C68_load_ends",
    "C68_scale_diverges",
    "C68_forever"
   ],
   "note": "Exact replacement of C36."
  },
  {
   "property": "C31",
   "status": "partial",
   "theorems": [
    "C31_meshes_partial",
    "C31_refuted"
   ],
   "note": "False as stated: a mesh goes if another attachment of its name elsewhere is removed. Exact statement in C80."
  },
  {
   "property": "C40",
   "status": "proved",
   "theorems": [
    "C40_erased"
   ],
   "note": "Names and order, and the whole editor in safe mode."
  },
  {
   "property": "C41",
   "status": "partial",
   "theorems": [
    "C41_refuted",
    "C69_strict"
   ],
   "note": "False as stated: the known names are erased before the unknown one raises. Exact statement in C69."
  },
  {
   "property": "C42",
   "status": "partial",
   "theorems": [
    "C70_no_reference",
    "C70_slot_list",
    "C42_refuted"
   ],
   "note": "References: proved for all documents. Slot list: false if a slot name contains _SLOT, else proved. Exact statement in C70."
  },
  {
   "property": "C43",
   "status": "partial",
   "theorems": [
    "C71_no_reference",
    "C43_refuted"
   ],
   "note": "False for keyframes in timelines that hide their slot. Exact statement in C71."
  },
  {
   "property": "C44",
   "status": "partial",
   "theorems": [
    "C72_kept",
    "C72_no_scaling",
    "C44_refuted"
   ],
   "note": "False for bones scaled before; all else proved for plain names. Exact statement in C72."
  },
  {
   "property": "C45",
   "status": "partial",
   "theorems": [
    "C73_covered",
    "C45_refuted"
   ],
   "note": "False if an image name contains _IMAGE, else proved (C73)."
  },
  {
   "property": "C46",
   "status": "partial",
   "theorems": [
    "C74_exact",
    "C46_refuted"
   ],
   "note": "False in general; proved for tidy documents (C74)."
  },
  {
   "property": "C47",
   "status": "proved",
   "theorems": [
    "C47_works"
   ],
   "note": "A clean-up succeeds after any history whenever the analysis of the document returns (C64) and its draw orders name existing slots. Exact statement in C75."
  },
  {
   "property": "C48",
   "status": "partial",
   "theorems": [
    "C76_scaled",
    "C48_refuted",
    "C48_refuted_no_root"
   ],
   "note": "False: an independent root is scaled twice; without root it raises after scaling. Exact statement in C76."
  },
  {
   "property": "C49",
   "status": "partial",
   "theorems": [
    "C77_bones",
    "C49_refuted"
   ],
   "note": "False: a clean-up restores the bones from the graph. Exact statement in C77."
  },
  {
   "property": "C50",
   "status": "partial",
   "theorems": [
    "C78_again",
    "C50_refuted"
   ],
   "note": "False if slots without attachments are removed. Exact statement in C78."
  },
  {
   "property": "C51",
   "status": "proved",
   "theorems": [
    "C51_history",
    "C51_reports"
   ],
   "note": "The whole editor state is equal, the reports are permutations, and errors are equal."
  },
  {
   "property": "C52",
   "status": "partial",
   "theorems": [
    "C79_iff",
    "C52_refuted"
   ],
   "note": "False for 4.0.0, which the library does not take for at least 3.8. Exact statement in C79."
  },
  {
   "property": "C69",
   "status": "proved",
   "theorems": [
    "C69_strict"
   ],
   "note": "Exact replacement of C41."
  },
  {
   "property": "C70",
   "status": "proved",
   "theorems": [
    "C70_no_reference",
    "C70_slot_list",
    "C70_any_names"
   ],
   "note": "Exact replacement of C42."
  },
  {
   "property": "C71",
   "status": "proved",
   "theorems": [
    "C71_no_reference"
   ],
   "note": "Exact replacement of C43."
  },
  {
   "property": "C72",
   "status": "proved",
   "theorems": [
    "C72_kept",
    "C72_no_scaling"
   ],
   "note": "Exact replacement of C44."
  },
  {
   "property": "C73",
   "status": "proved",
   "theorems": [
    "C73_covered",
    "C73_loaded"
   ],
   "note": "Exact replacement of C45."
  },
  {
   "property": "C74",
   "status": "proved",
   "theorems": [
    "C74_exact"
   ],
   "note": "Exact replacement of C46."
  },
  {
   "property": "C75",
   "status": "proved",
   "theorems": [
    "C75_iff",
    "C75_ready",
    "C75_refused"
   ],
   "note": "Exact replacement of C47."
  },
  {
   "property": "C76",
   "status": "proved",
   "theorems": [
    "C76_scaled",
    "C76_works"
   ],
   "note": "Exact replacement of C48."
  },
  {
   "property": "C77",
   "status": "proved",
   "theorems": [
    "C77_bones"
   ],
   "note": "Exact replacement of C49."
  },
  {
   "property": "C78",
   "status": "proved",
   "theorems": [
    "C78_again"
   ],
   "note": "Exact replacement of C50."
  },
  {
   "property": "C79",
   "status": "proved",
   "theorems": [
    "C79_iff",
    "C79_same",
    "C79_lost"
   ],
   "note": "Exact replacement of C52."
  },
  {
   "property": "C80",
   "status": "proved",
   "theorems": [
    "C80_slots",
    "C80_attachments"
   ],
   "note": "Exact replacement of C31."
  },
  {
   "property": "C81",
   "status": "proved",
   "theorems": [
    "C81_fixed"
   ],
   "note": "All histories."
  },
  {
   "property": "C82",
   "status": "proved",
   "theorems": [
    "C82_safe",
    "C82_unlinked",
    "C82_names"
   ],
   "note": "All histories."
  },
  {
   "property": "C83",
   "status": "proved",
   "theorems": [
    "C83_skins",
    "C83_animations"
   ],
   "note": "If the clean-up fails, erase_skins leaves images_references unpruned."
  },
  {
   "property": "C84",
   "status": "partial",
   "theorems": [
    "C84_refuted"
   ],
   "note": "False as stated: skins named before the unknown one are gone. C82_safe gives the exact state."
  },
  {
   "property": "C85",
   "status": "proved",
   "theorems": [
    "C85_loaded",
    "C85_kept",
    "C85_tidy"
   ],
   "note": "C85_tidy for tidy documents (see C74)."
  },
  {
   "property": "C86",
   "status": "partial",
   "theorems": [
    "C86_refuted"
   ],
   "note": "False as stated: entries are not recomputed when the last use goes. C85_kept is the exact statement."
  },
  {
   "property": "C53",
   "status": "proved",
   "theorems": [
    "C53_untouched",
    "C53_value",
    "C53_separate",
    "C53_load",
    "C53_loaded",
    "C53_refuses"
   ],
   "note": "On a separate model with object identity (Heap.v): loading mirrored, later operations as arbitrary programs over what the editor holds."
  },
  {
   "property": "C87",
   "status": "proved",
   "theorems": [
    "C87_new",
    "C87_content"
   ],
   "note": "On the model with object identity."
  },
  {
   "property": "C88",
   "status": "proved",
   "theorems": [
    "C88_deepcopy"
   ],
   "note": "On the model with object identity."
  },
  {
   "property": "C89",
   "status": "proved",
   "theorems": [
    "C89_declared",
    "C89_all_classes",
    "C89_loaded"
   ],
   "note": "Against tables read from the source by tools/gen_tables.py."
  },
  {
   "property": "C90",
   "status": "proved",
   "theorems": [
    "C90_defaults",
    "C90_clean",
    "C90_export",
    "C90_everywhere",
    "C90_loaded"
   ],
   "note": "The generic traversal is mirrored in Traverse.v and proved equal to the functions of Classes.v."
  },
  {
   "property": "C91",
   "status": "proved",
   "theorems": [
    "C91_exact",
    "C91_refused"
   ],
   "note": ""
  },
  {
   "property": "C92",
   "status": "proved",
   "theorems": [
    "C92_exact",
    "C92_scale",
    "C92_refused"
   ],
   "note": ""
  },
  {
   "property": "C93",
   "status": "proved",
   "theorems": [
    "C93_exact",
    "C93_one_value",
    "C93_refused"
   ],
   "note": "Texts with an escape of a half of a surrogate pair that does not form a pair are not modelled."
  },
  {
   "property": "C94",
   "status": "proved",
   "theorems": [
    "C94_decimal",
    "C94_product",
    "C94_one_answer"
   ],
   "note": ""
  },
  {
   "property": "C95",
   "status": "partial",
   "theorems": [
    "C95_refuted"
   ],
   "note": "False as stated: a string that spells no boolean is returned unchanged. C96_boolean is the exact statement."
  },
  {
   "property": "C96",
   "status": "proved",
   "theorems": [
    "C96_number",
    "C96_integer",
    "C96_string",
    "C96_boolean",
    "C96_errors",
    "C96_refused"
   ],
   "note": ""
  },
  {
   "property": "C97",
   "status": "proved",
   "theorems": [
    "C97_read_back",
    "C97_text"
   ],
   "note": ""
  },
  {
   "property": "C98",
   "status": "proved",
   "theorems": [
    "C98_document",
    "C98_images"
   ],
   "note": ""
  },
  {
   "property": "C99",
   "status": "partial",
   "theorems": [
    "C99_refuted",
    "C99_never"
   ],
   "note": "False as stated: os.makedirs(\"\") raises. C100 is the exact statement."
  },
  {
   "property": "C100",
   "status": "proved",
   "theorems": [
    "C100_document",
    "C100_images",
    "C99_never"
   ],
   "note": ""
  },
  {
   "property": "C101",
   "status": "proved",
   "theorems": [
    "C101_exact",
    "C101_editor",
    "C101_plain"
   ],
   "note": ""
  },
  {
   "property": "C102",
   "status": "proved",
   "theorems": [
    "C102_read_back"
   ],
   "note": ""
  },
  {
   "property": "C103",
   "status": "proved",
   "theorems": [
    "C103_read_back"
   ],
   "note": ""
  },
  {
   "property": "C104",
   "status": "partial",
   "theorems": [
    "C104_refuted",
    "C104_refuted_attributes",
    "C104_refuted_slot"
   ],
   "note": "False as stated: three ways in which calls make the export unloadable. C105 is the exact statement."
  },
  {
   "property": "C105",
   "status": "proved",
   "theorems": [
    "C105_exact",
    "C105_same",
    "C105_loaded",
    "C105_plain",
    "C105_file"
   ],
   "note": ""
  },
  {
   "property": "C106",
   "status": "proved",
   "theorems": [
    "C106_start",
    "C106_drawn",
    "C106_undrawn",
    "C106_node",
    "C106_counter",
    "C106_in_order"
   ],
   "note": ""
  },
  {
   "property": "C107",
   "status": "proved",
   "theorems": [
    "C107_kinds",
    "C107_connect",
    "C107_edges"
   ],
   "note": "A node type for which the factory returns None is outside the model."
  },
  {
   "property": "C108",
   "status": "proved",
   "theorems": [
    "C108_order",
    "C108_exact",
    "C108_valid"
   ],
   "note": ""
  },
  {
   "property": "C109",
   "status": "proved",
   "theorems": [
    "C109_analysis",
    "C109_reports"
   ],
   "note": ""
  },
  {
   "property": "C110",
   "status": "proved",
   "theorems": [
    "C110_clean",
    "C110_erase"
   ],
   "note": ""
  },
  {
   "property": "C111",
   "status": "proved",
   "theorems": [
    "C111_order"
   ],
   "note": ""
  },
  {
   "property": "C112",
   "status": "partial",
   "theorems": [
    "C112_refuted"
   ],
   "note": "False as stated: an image is kept by a call that leaves another skin with a mesh of its name. C113 is the exact statement."
  },
  {
   "property": "C113",
   "status": "proved",
   "theorems": [
    "C113_skins",
    "C113_tidy",
    "C113_animations"
   ],
   "note": ""
  },
  {
   "property": "C114",
   "status": "proved",
   "theorems": [
    "C114_animations",
    "C114_skins"
   ],
   "note": ""
  },
  {
   "property": "C115",
   "status": "partial",
   "theorems": [
    "C115_refuted"
   ],
   "note": "False as stated: a later clean-up restores the bones as of erase_skins. C116 is the exact statement for the two calls, C77 for later ones."
  },
  {
   "property": "C116",
   "status": "proved",
   "theorems": [
    "C116_skins",
    "C116_animations"
   ],
   "note": ""
  },
  {
   "property": "C117",
   "status": "proved",
   "theorems": [
    "C117_document",
    "C117_images",
    "C117_graph",
    "C117_one",
    "C117_exact",
    "C117_exact_line"
   ],
   "note": ""
  },
  {
   "property": "C118",
   "status": "proved",
   "theorems": [
    "C118_exact",
    "C118_self",
    "C118_symmetric",
    "C118_transitive"
   ],
   "note": ""
  },
  {
   "property": "C119",
   "status": "proved",
   "theorems": [
    "C119_listed",
    "C119_returns",
    "C119_refused",
    "C119_one_value"
   ],
   "note": ""
  },
  {
   "property": "C120",
   "status": "proved",
   "theorems": [
    "C120_exact",
    "C120_refused",
    "C120_one_result"
   ],
   "note": ""
  },
  {
   "property": "C121",
   "status": "proved",
   "theorems": [
    "C121_exact",
    "C121_read_back",
    "C121_one_text",
    "C121_one_float"
   ],
   "note": ""
  },
  {
   "property": "C122",
   "status": "proved",
   "theorems": [
    "C122_cast",
    "C122_id",
    "C122_one_text",
    "C122_strings"
   ],
   "note": ""
  },
  {
   "property": "C123",
   "status": "proved",
   "theorems": [
    "C123_versions",
    "C123_text",
    "C123_bad_text",
    "C123_other"
   ],
   "note": ""
  },
  {
   "property": "C124",
   "status": "proved",
   "theorems": [
    "C124_release",
    "C124_text",
    "C124_str",
    "C124_large"
   ],
   "note": ""
  },
  {
   "property": "C125",
   "status": "proved",
   "theorems": [
    "C125_exact",
    "C125_other_kind",
    "C125_one_order"
   ],
   "note": "Node types are compared as strings (the library compares the identity of interned names)."
  },
  {
   "property": "C126",
   "status": "proved",
   "theorems": [
    "C126_color",
    "C126_timeline",
    "C126_nothing",
    "C126_cases"
   ],
   "note": ""
  },
  {
   "property": "C127",
   "status": "proved",
   "theorems": [
    "C127_boned",
    "C127_fails",
    "C127_works",
    "C127_cases"
   ],
   "note": "The graph is not described; the images are those of the editor."
  },
  {
   "property": "C128",
   "status": "proved",
   "theorems": [
    "C128_scale"
   ],
   "note": ""
  },
  {
   "property": "C129",
   "status": "proved",
   "theorems": [
    "C129_exceptions"
   ],
   "note": "Also says that the model does not leave its domain (EUnmodelled) and no loop runs out of fuel (EDiverges) in any call after loading."
  },
  {
   "property": "C130",
   "status": "proved",
   "theorems": [
    "C130_loads",
    "C130_only",
    "C130_editor"
   ],
   "note": "Documents with names that are neither strings nor null, and empty lists or strings as attachments of a skin, are outside the model (they count as not loading)."
  },
  {
   "property": "C131",
   "status": "proved",
   "theorems": [
    "C131_errors"
   ],
   "note": ""
  },
  {
   "property": "C132",
   "status": "proved",
   "theorems": [
    "C132_slots",
    "C132_attachments"
   ],
   "note": ""
  },
  {
   "property": "C133",
   "status": "proved",
   "theorems": [
    "C133_slots",
    "C133_slots_fail",
    "C133_attachments"
   ],
   "note": ""
  },
  {
   "property": "C134",
   "status": "partial",
   "theorems": [
    "C134_refuted"
   ],
   "note": "False as stated: the failed clean-up has already taken the unused attachments out of the graph, so the next one fails on them. What holds is C135; building the graph again (erase_skins) helps in the witness."
  },
  {
   "property": "C135",
   "status": "proved",
   "theorems": [
    "C135_again",
    "C135_lost"
   ],
   "note": ""
  },
  {
   "property": "C136",
   "status": "proved",
   "theorems": [
    "C136_raises",
    "C136_kept",
    "C136_rebuilt"
   ],
   "note": ""
  },
  {
   "property": "C137",
   "status": "proved",
   "theorems": [
    "C137_kept",
    "C137_works",
    "C137_refuses",
    "C137_fails",
    "C137_cases",
    "C137_removes"
   ],
   "note": "C137_names shows a document for which slot names with '_SLOT' make it false."
  },
  {
   "property": "C138",
   "status": "proved",
   "theorems": [
    "C138_exact",
    "C138_same",
    "C138_plain",
    "C138_file"
   ],
   "note": ""
  },
  {
   "property": "C139",
   "status": "partial",
   "theorems": [
    "C139_refuted"
   ],
   "note": "False as stated: a clean-up that failed takes attachments from the graph but not from the document, and a later one drops the images of those left. C140, C141 and C142 are what holds."
  },
  {
   "property": "C140",
   "status": "proved",
   "theorems": [
    "C140_failed",
    "C140_fewer"
   ],
   "note": "What holds of C139 (with C141, C142)."
  },
  {
   "property": "C141",
   "status": "proved",
   "theorems": [
    "C141_covered"
   ],
   "note": "What holds of C139 for a caller that builds the graph again."
  },
  {
   "property": "C142",
   "status": "proved",
   "theorems": [
    "C142_orders",
    "C142_clean",
    "C142_images"
   ],
   "note": "What holds of C139 for documents with sound draw orders."
  },
  {
   "property": "C143",
   "status": "proved",
   "theorems": [
    "C143_erased",
    "C143_attachments"
   ],
   "note": ""
  },
  {
   "property": "C144",
   "status": "proved",
   "theorems": [
    "C144_equal",
    "C144_graph",
    "C144_hash",
    "C144_degrees"
   ],
   "note": ""
  },
  {
   "property": "C145",
   "status": "proved",
   "theorems": [
    "C145_graph",
    "C145_images",
    "C145_fewer"
   ],
   "note": ""
  },
  {
   "property": "C146",
   "status": "proved",
   "theorems": [
    "C146_works",
    "C146_report"
   ],
   "note": ""
  },
  {
   "property": "C147",
   "status": "proved",
   "theorems": [
    "C147_export"
   ],
   "note": ""
  },
  {
   "property": "C148",
   "status": "proved",
   "theorems": [
    "C148_again"
   ],
   "note": ""
  },
  {
   "property": "C149",
   "status": "proved",
   "theorems": [
    "C149_raise",
    "C149_work",
    "C149_clean",
    "C149_clean_real"
   ],
   "note": ""
  },
  {
   "property": "C150",
   "status": "proved",
   "theorems": [
    "C150_incomplete",
    "C150_unknown",
    "C150_required",
    "C150_made",
    "C150_library"
   ],
   "note": ""
  },
  {
   "property": "C151",
   "status": "proved",
   "theorems": [
    "C151_attribute",
    "C151_other",
    "C151_default_refuted"
   ],
   "note": ""
  },
  {
   "property": "C152",
   "status": "proved",
   "theorems": [
    "C152_attribute_error",
    "C152_value_error",
    "C152_no_other",
    "C152_none"
   ],
   "note": ""
  },
  {
   "property": "C153",
   "status": "proved",
   "theorems": [
    "C153_commutes",
    "C153_export",
    "C153_clean"
   ],
   "note": ""
  },
  {
   "property": "C154",
   "status": "proved",
   "theorems": [
    "C154_same",
    "C154_floats",
    "C154_refuted_number",
    "C154_refuted_raises"
   ],
   "note": ""
  },
  {
   "property": "C155",
   "status": "proved",
   "theorems": [
    "C155_calls",
    "C155_floats"
   ],
   "note": ""
  },
  {
   "property": "C156",
   "status": "proved",
   "theorems": [
    "C156_editor",
    "C156_files"
   ],
   "note": ""
  }
 ]
}