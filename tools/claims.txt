C01 proved : C01_parse_two C01_parse_three C01_wrong_number_of_components C01_only_ValueError : Versions with two or three components parse exactly; a wrong number of dots, and every other refusal, is a ValueError.
C02 partial : C02_comparisons_sound_partial C02_same_minor_partial C02_component_wise C02_le_partial_order C02_refuted C02_doc_example_refuted : False as stated (component-wise operators: 4.0 >= 3.8 is False). Proved: true comparisons are right, exact characterisation, <= and >= exact within one minor version.
C04 proved : C04_scale_tag C04_no_bracket C04_scanner_is_findall C04_same_tags_same_result C04_tag_found_anywhere : Against a relational definition of the regular expression and of findall.
C05 proved : C05_exact C05_unsupported_tag C05_repeated_tag C05_not_a_number C05_only_scale : Complete case analysis of the result from the list of tags.
C03 partial : C03_clean_partial C03_never_cleans C03_refuted : False as stated: the test version < 3.8 is component-wise and holds for no real version, so nothing is ever cleaned (proved); the rest holds.
C06 proved : C06_unknown_refused C06_values_kept C06_slot_timeline C06_bone_timeline C06_draw_order C06_animation C06_skin C06_document : All 24 plain classes and all nested classes.
C07 proved : C07_exact C07_never_without C07_declared : All plain classes; C07_declared against the tables read from the source by tools/gen_tables.py.
C08 partial : C08_export_exact C08_nested C08_refuted : False as stated for one attribute (a slot keyframe's null name is exported); exact characterisation proved for every class and version.
C09 partial : C09_reload_exact C09_export_stable_partial C09_reload_refuted C09_stable_refuted : False as stated (no bones / no slots / null required attributes are exported unreadably; old-version null draw order times); exact condition for readability and stability otherwise proved for all documents.
C10 partial : C10_element C10_reload_keeps_partial C10_refuted : Proved for every plain element and version, and for whole documents without null draw order times (or version >= 3.8); the excluded case is refuted.
C11 partial : C11_loads_partial C11_refuted : False as stated: point, clipping, boundingbox and region are always refused (proved); mesh, path, linkedmesh and untyped load with all values.
C12 proved : C12_generated_is_fresh C12_never_repeats : For every graph and every history of calls, failing calls included.
C13 proved : C13_lookup C13_add_in_use C13_add_fresh C13_add_non_string C13_non_string C13_remove_absent : get_node after any history against the trace of calls and results.
C14 proved : C14_edges : After any history with any node factory.
C15 proved : C15_add_edge_when C15_add_edge_effect C15_add_edge_fails C15_remove_edge_when C15_remove_edge_effect C15_remove_edge_fails : Exact success conditions, exact effect, no effect on failure.
C16 proved : C16_remove_when C16_remove_effect : Exact effect on every node, including the order of children and parents.
C17 proved : C17_heads C17_tails : On all reachable graphs, cyclic or not.
C18 proved : C18_circular : Reported exactly when there is a cycle; a whole cycle is in the report.
C19 partial : C19_leads_partial C19_refuted : False as stated: nodes leading to a cycle are reported too. Proved: every reported id leads to a cycle (C59).
C20 proved : C20_paths : Exactly the directed paths of at most d nodes, each once.
C21 proved : C21_refused C21_returns : ValueError exactly in the listed cases.
C22 partial : C22_order_partial C22_covers_partial C22_forest_partial C22_refuted C22_refuted_order : False as stated: with two connected heads a head is listed twice, and a node can come before its parent even with one head. Proved: exact contents and multiplicities, and the statement for forests (C60, C61).
C54 proved : C54_component_wise C54_partial_order : Exact.
C55 proved : C55_never_cleans : Exact.
C56 proved : C56_export_exact : Exact for every plain class and version.
C57 proved : C57_reload_exact : Exact.
C58 proved : C58_loads C58_refused : All attachment types.
C59 proved : C59_leads : Exact replacement of C19.
C60 proved : C60_order : Exact contents and multiplicities of the order.
C61 proved : C61_forest : Topological on forests.
C37 proved : C37_in_range C37_when C37_any : For any offsets (even invalid ones) and slots with distinct names; exact condition for success.
C38 partial : C38_order_partial C38_moved_partial C38_refuted : False as stated: a slot whose new offset is 0 is dropped from the keyframe, which can swap it with unlisted slots (witness with valid non-zero offsets). Exact condition proved (C62).
C39 proved : C39_spine_rule : The result is the unique list obeying the Spine rule.
C62 proved : C62_order_kept_iff C62_moved : Exact replacement of C38.
C23 partial : C23_ids_apart C23_back_refuted C63_back_exact : The first half is proved; the second is false as stated (a name containing _SLOT does not come back); exact condition in C63.
C24 proved : C24_round_trip : For every document whose graph can be built, of any shape.
C25 proved : C25_edges C25_nodes C25_reachable : The edges and nodes are exactly the references and elements of the document (a bone's parent edge requires its parent to be listed before it).
C26 proved : C26_build_iff C26_value_error C26_not_object : Exact condition for documents of the expected shape; besides repeated names only a bone that is its own parent is refused.
C27 proved : C27_leafs C27_heads : For every reachable graph; the removed nodes are exactly the least set closed under the rule, the rest is unchanged.
C63 proved : C63_back_exact : Exact replacement of the second half of C23.
C28 proved : C28_eight_digits C28_no_color C28_returns C28_hex_readable : Every slot list with distinct slot names (as any loadable document has).
C29 proved : C29_unused_slots : Exact, for data with distinct slot names (the editor refuses other documents, C26).
C30 proved : C30_used_kept : For data with distinct slot names; exact characterisation in C65.
C32 partial : C32_analysis_returns_partial C32_refuted : False as stated: an animation without slot timelines raises TypeError if nothing is visible in the setup pose. Exact condition in C64.
C33 proved : C33_unknown_skin C33_known_skin : Complete description of the new data, on success and on failure.
C34 partial : C34_copied_partial C34_refuted C34_refuted_parent : False as stated: the copy is of the attachment with the same key, not of the parent mesh. Exact statement in C66.
C35 proved : C35_scale : Exact, success and value, any depth.
C36 partial : C36_no_cycle_partial C36_refuted : False as stated: a cycle of parent bones makes loading run forever. Exact statement in C68.
C64 proved : C64_returns : Exact replacement of C32.
C65 proved : C65_reported : Exact.
C66 proved : C33_known_skin C66_linked_meshes C66_no_link_left : Exact replacement of C34.
C67 proved : C67_reports : Exact, for skins whose dictionaries have each key once (as every JSON document's have).
C68 proved : C68_load_ends C68_scale_diverges C68_forever : Exact replacement of C36.
C31 partial : C31_meshes_partial C31_refuted : False as stated: a mesh goes if another attachment of its name elsewhere is removed. Exact statement in C80.
C40 proved : C40_erased : Names and order, and the whole editor in safe mode.
C41 partial : C41_refuted C69_strict : False as stated: the known names are erased before the unknown one raises. Exact statement in C69.
C42 partial : C70_no_reference C70_slot_list C42_refuted : References: proved for all documents. Slot list: false if a slot name contains _SLOT, else proved. Exact statement in C70.
C43 partial : C71_no_reference C43_refuted : False for keyframes in timelines that hide their slot. Exact statement in C71.
C44 partial : C72_kept C72_no_scaling C44_refuted : False for bones scaled before; all else proved for plain names. Exact statement in C72.
C45 partial : C73_covered C45_refuted : False if an image name contains _IMAGE, else proved (C73).
C46 partial : C74_exact C46_refuted : False in general; proved for tidy documents (C74).
C47 proved : C47_works : A clean-up succeeds after any history whenever the analysis of the document returns (C64) and its draw orders name existing slots. Exact statement in C75.
C48 partial : C76_scaled C48_refuted C48_refuted_no_root : False: an independent root is scaled twice; without root it raises after scaling. Exact statement in C76.
C49 partial : C77_bones C49_refuted : False: a clean-up restores the bones from the graph. Exact statement in C77.
C50 partial : C78_again C50_refuted : False if slots without attachments are removed. Exact statement in C78.
C51 proved : C51_history C51_reports : The whole editor state is equal, the reports are permutations, and errors are equal.
C52 partial : C79_iff C52_refuted : False for 4.0.0, which the library does not take for at least 3.8. Exact statement in C79.
C69 proved : C69_strict : Exact replacement of C41.
C70 proved : C70_no_reference C70_slot_list C70_any_names : Exact replacement of C42.
C71 proved : C71_no_reference : Exact replacement of C43.
C72 proved : C72_kept C72_no_scaling : Exact replacement of C44.
C73 proved : C73_covered C73_loaded : Exact replacement of C45.
C74 proved : C74_exact : Exact replacement of C46.
C75 proved : C75_iff C75_ready C75_refused : Exact replacement of C47.
C76 proved : C76_scaled C76_works : Exact replacement of C48.
C77 proved : C77_bones : Exact replacement of C49.
C78 proved : C78_again : Exact replacement of C50.
C79 proved : C79_iff C79_same C79_lost : Exact replacement of C52.
C80 proved : C80_slots C80_attachments : Exact replacement of C31.
C81 proved : C81_fixed : All histories.
C82 proved : C82_safe C82_unlinked C82_names : All histories.
C83 proved : C83_skins C83_animations : If the clean-up fails, erase_skins leaves images_references unpruned.
C84 partial : C84_refuted : False as stated: skins named before the unknown one are gone. C82_safe gives the exact state.
C85 proved : C85_loaded C85_kept C85_tidy : C85_tidy for tidy documents (see C74).
C86 partial : C86_refuted : False as stated: entries are not recomputed when the last use goes. C85_kept is the exact statement.
C53 proved : C53_untouched C53_value C53_separate C53_load C53_loaded C53_refuses : On a separate model with object identity (Heap.v): loading mirrored, later operations as arbitrary programs over what the editor holds.
C87 proved : C87_new C87_content : On the model with object identity.
C88 proved : C88_deepcopy : On the model with object identity.
C89 proved : C89_declared C89_all_classes C89_loaded : Against tables read from the source by tools/gen_tables.py.
C90 proved : C90_defaults C90_clean C90_export C90_everywhere C90_loaded : The generic traversal is mirrored in Traverse.v and proved equal to the functions of Classes.v.
C91 proved : C91_exact C91_refused :
C92 proved : C92_exact C92_scale C92_refused :
C93 proved : C93_exact C93_one_value C93_refused : Texts with an escape of a half of a surrogate pair that does not form a pair are not modelled.
C94 proved : C94_decimal C94_product C94_one_answer :
C95 partial : C95_refuted : False as stated: a string that spells no boolean is returned unchanged. C96_boolean is the exact statement.
C96 proved : C96_number C96_integer C96_string C96_boolean C96_errors C96_refused :
C97 proved : C97_read_back C97_text :
C98 proved : C98_document C98_images :
C99 partial : C99_refuted C99_never : False as stated: os.makedirs("") raises. C100 is the exact statement.
C100 proved : C100_document C100_images C99_never :
C101 proved : C101_exact C101_editor C101_plain :
C102 proved : C102_read_back :
C103 proved : C103_read_back :
C104 partial : C104_refuted C104_refuted_attributes C104_refuted_slot : False as stated: three ways in which calls make the export unloadable. C105 is the exact statement.
C105 proved : C105_exact C105_same C105_loaded C105_plain C105_file :
C106 proved : C106_start C106_drawn C106_undrawn C106_node C106_counter C106_in_order :
C107 proved : C107_kinds C107_connect C107_edges : A node type for which the factory returns None is outside the model.
C108 proved : C108_order C108_exact C108_valid :
C109 proved : C109_analysis C109_reports :
C110 proved : C110_clean C110_erase :
C111 proved : C111_order :
C112 partial : C112_refuted : False as stated: an image is kept by a call that leaves another skin with a mesh of its name. C113 is the exact statement.
C113 proved : C113_skins C113_tidy C113_animations :
C114 proved : C114_animations C114_skins :
C115 partial : C115_refuted : False as stated: a later clean-up restores the bones as of erase_skins. C116 is the exact statement for the two calls, C77 for later ones.
C116 proved : C116_skins C116_animations :
C117 proved : C117_document C117_images C117_graph C117_one C117_exact C117_exact_line :
C118 proved : C118_exact C118_self C118_symmetric C118_transitive :
C119 proved : C119_listed C119_returns C119_refused C119_one_value :
C120 proved : C120_exact C120_refused C120_one_result :
C121 proved : C121_exact C121_read_back C121_one_text C121_one_float :
C122 proved : C122_cast C122_id C122_one_text C122_strings :
C123 proved : C123_versions C123_text C123_bad_text C123_other :
C124 proved : C124_release C124_text C124_str C124_large :
C125 proved : C125_exact C125_other_kind C125_one_order : Node types are compared as strings (the library compares the identity of interned names).
C126 proved : C126_color C126_timeline C126_nothing C126_cases :
C127 proved : C127_boned C127_fails C127_works C127_cases : The graph is not described; the images are those of the editor.
C128 proved : C128_scale :
C129 proved : C129_exceptions : Also says that the model does not leave its domain (EUnmodelled) and no loop runs out of fuel (EDiverges) in any call after loading.
C130 proved : C130_loads C130_only C130_editor : Documents with names that are neither strings nor null, and empty lists or strings as attachments of a skin, are outside the model (they count as not loading).
C131 proved : C131_errors :
C132 proved : C132_slots C132_attachments :
C133 proved : C133_slots C133_slots_fail C133_attachments :
C134 partial : C134_refuted : False as stated: the failed clean-up has already taken the unused attachments out of the graph, so the next one fails on them. What holds is C135; building the graph again (erase_skins) helps in the witness.
C135 proved : C135_again C135_lost :
C136 proved : C136_raises C136_kept C136_rebuilt :
C137 proved : C137_kept C137_works C137_refuses C137_fails C137_cases C137_removes : C137_names shows a document for which slot names with '_SLOT' make it false.
C138 proved : C138_exact C138_same C138_plain C138_file :
C139 partial : C139_refuted : False as stated: a clean-up that failed takes attachments from the graph but not from the document, and a later one drops the images of those left. C140, C141 and C142 are what holds.
C140 proved : C140_failed C140_fewer : What holds of C139 (with C141, C142).
C141 proved : C141_covered : What holds of C139 for a caller that builds the graph again.
C142 proved : C142_orders C142_clean C142_images : What holds of C139 for documents with sound draw orders.
C143 proved : C143_erased C143_attachments :
C144 proved : C144_equal C144_graph C144_hash C144_degrees :
C145 proved : C145_graph C145_images C145_fewer :
C146 proved : C146_works C146_report :
C147 proved : C147_export :
C148 proved : C148_again :
C149 proved : C149_raise C149_work C149_clean C149_clean_real :
C150 proved : C150_incomplete C150_unknown C150_required C150_made C150_library :
C151 proved : C151_attribute C151_other C151_default_refuted :
C152 proved : C152_attribute_error C152_value_error C152_no_other C152_none :
C153 proved : C153_commutes C153_export C153_clean :
C154 proved : C154_same C154_floats C154_refuted_number C154_refuted_raises :
C155 proved : C155_calls C155_floats :
C156 proved : C156_editor C156_files :
