#!/usr/bin/env python3
"""Writes /verif/properties.jsonl (kept as a script so the list is easy to edit)."""
import json, os
P = []
def p(title, statement, quantifier, why, anchors):
    P.append(dict(id="C%02d" % (len(P) + 1), title=title, statement=statement,
                  quantifier=quantifier, why_tests_cant=why, anchors=anchors))

VT = "spine_json_lib/data/spine_version_type.py"
BT = "spine_json_lib/data/data_types/base_type.py"
SK = "spine_json_lib/data/data_types/skin.py"
DO = "spine_json_lib/data/data_types/draworder.py"
AN = "spine_json_lib/data/data_types/animation.py"
SL = "spine_json_lib/data/data_types/slot.py"
BO = "spine_json_lib/data/data_types/bone.py"
AD = "spine_json_lib/data/spine_anim_data.py"
ED = "spine_json_lib/spine_animation_editor.py"
GC = "spine_json_lib/spine_graph_container.py"
SN = "spine_json_lib/deserializer/spine_nodes.py"
DG = "spine_json_lib/graph/dagraph.py"
GV = "spine_json_lib/graph/graph_validator.py"
SP = "spine_json_lib/graph/spamnode.py"
UT = "spine_json_lib/utils.py"

# ---- versions
p("Version parsing is exact",
  "SpineVersion('a.b') has (major, minor, patch) = (a, b, 0) and SpineVersion('a.b.c') has (a, b, c), for the decimal spelling of any numbers; a string with fewer than two or more than three dot-separated components raises ValueError.",
  "all natural numbers a, b, c and all strings", "infinitely many numbers and malformed strings",
  [VT + "::SpineVersion.validate", VT + "::SpineVersion.split_version"])
p("Version comparison follows release order",
  "For versions u, v: u < v, u <= v, u > v, u >= v hold exactly when u is released before (after) v, i.e. they follow the lexicographic order of (major, minor, patch); exactly one of u < v, u == v, u > v holds.",
  "all pairs of versions", "a law over all pairs; the code compares component by component with 'and'",
  [VT + "::SpineVersion.__lt__", VT + "::SpineVersion.__ge__", VT + "::SpineVersion.__eq__"])
p("Old-version clean-up is applied to old versions",
  "clean_unsupported_attributes(v) clears every attribute listed as unsupported in old versions exactly when v is older than 3.8, and changes nothing else.",
  "all objects and all versions", "ranges over all versions and objects",
  [BT + "::SpineData.clean_unsupported_attributes", BT + "::SpineData.remove_unsupported_attributes", VT + "::SpineVersion.__lt__"])
# ---- tags
p("Scale tag in a name",
  "get_tags_from_name returns the tag written as '[ scale : X ]' anywhere in a name, with any amount of blank space inside the brackets, as {'scale': float(X)}; a name containing no '[' has no tags; text that is not of the form [word : value] is ignored.",
  "all names (all prefixes, suffixes, paddings, tag values)", "infinitely many names",
  [UT + "::get_tags_from_name", UT + "::tag_detector"])
p("Bad tags are refused",
  "A name with an unsupported tag, or with two scale tags, or with a scale tag whose value is not a number, makes get_tags_from_name raise ValueError; it never returns any tag other than 'scale'.",
  "all names", "all placements of tags in names",
  [UT + "::get_tags_from_name", UT + "::cast_element"])
# ---- SpineData
p("Unknown attributes are never silently dropped",
  "Building any spine element from JSON raises SpineParsingException naming exactly the unsupported attributes if the JSON object has a key the element class does not know; if it is built, every key of the input is kept with its value.",
  "all element classes and all JSON objects", "all key sets and values",
  [BT + "::SpineData.__init__"])
p("Required attributes are enforced",
  "Building an element succeeds only if every required attribute of its class is present in the JSON; otherwise SpineParsingException names exactly the missing ones (when no attribute is unsupported).",
  "all element classes and all JSON objects", "all key sets",
  [BT + "::SpineData.__init__", DO + "::DrawOrderTimelineOffset.REQUIRED", SL + "::Slot.REQUIRED", BO + "::Bone.REQUIRED"])
p("Export writes exactly the non-default attributes",
  "An attribute appears in the exported JSON of an element exactly when its value differs (Python ==) from the default of its class for the file's version, and then with its own value; absent attributes of the input that have no default value stay absent.",
  "all element classes, attribute values and versions", "all values, including 0/0.0/False and 1/1.0/True equalities",
  [BT + "::SpineData.to_spine_data_ignoring_default_values", BT + "::SpineData.set_default_values_from_version"])
p("Export is stable under reload",
  "Exporting a document, loading the result and exporting again yields exactly the same JSON; the reload succeeds whenever the first load did.",
  "all loadable documents", "whole-document round trip over unbounded nested documents",
  [AD + "::JsonSpineAnimationData.load_data", AD + "::JsonSpineAnimationData.to_json_data", BT + "::SpineData.to_json"])
p("Reload keeps every effective value",
  "Reloading an exported element gives every attribute a value equal (Python ==) to the one it had before the export.",
  "all element classes, attribute values and versions", "all values",
  [BT + "::SpineData.set_default_values", BT + "::SpineData.to_json"])
p("Every attachment type listed as supported loads",
  "A skin attachment whose type is any of the documented supported types (mesh, path, point, clipping, boundingbox, region) with only attributes of that type loads without error.",
  "all attachments of the listed types", "a whole family of inputs per type",
  [SK + "::parse_skin_attachment_data", SK + "::SKIN_ATTACHMENTS_TYPES", SK + "::SkinBoundingBox", SK + "::SkinPoint", SK + "::SkinClipping"])
# ---- DAGraph
p("Generated ids are fresh and never repeat",
  "generate_unique_id always returns, and returns an id that is not used by any node of the graph and that it never returned before on this graph, whatever nodes were added or removed in between.",
  "all graphs and all histories of graph operations", "unbounded histories, including user-chosen numeric ids",
  [DG + "::DAGraph.generate_unique_id"])
p("A graph is a finite map from ids to nodes",
  "After any history, get_node(i) returns the node of the last successful add_node with id i unless it was removed since, else None; add_node with an id in use raises ValueError and changes no node; a non-string id raises TypeError; remove_node_by_id of an absent id raises ValueError and changes no node.",
  "all histories of graph operations", "refinement over unbounded histories",
  [DG + "::DAGraph.add_node", DG + "::DAGraph.get_node", DG + "::DAGraph.remove_node_by_id"])
p("Edges are symmetric, never dangle and respect the node types",
  "After any history: n lists m as child exactly when m lists n as parent; both ends of an edge are in the graph; no node is its own child; no node has a child of a type it forbids; no child or parent is listed twice.",
  "all histories of graph operations, including failing ones", "invariant over unbounded histories",
  [DG + "::DAGraph.add_edge", DG + "::DAGraph.remove_edge", SP + "::SpamNode._add_child", SP + "::SpamNode._add_parent"])
p("Edge operations are the set operations, or fail without effect",
  "add_edge(p, c) succeeds exactly when both nodes exist, differ, and p does not forbid c's type; it then adds the edge (p, c) and no other. remove_edge(p, c) succeeds exactly when that edge exists and removes only it. A failing call leaves all edges as they were.",
  "all graphs and ids", "all reachable graphs",
  [DG + "::DAGraph.add_edge", DG + "::DAGraph.remove_edge"])
p("Removing a node removes it and its edges only",
  "remove_node_by_id(i) removes node i and every edge touching it; all other nodes, their data, their order and all other edges are unchanged.",
  "all reachable graphs and ids", "all graphs",
  [DG + "::DAGraph.remove_node_by_id"])
p("Heads and tails are exact",
  "get_heads_id lists each node without parents exactly once and nothing else; get_tails_id lists each node without children exactly once and nothing else; both always terminate, even on cyclic graphs.",
  "all reachable graphs, cyclic or not", "graph traversal over all shapes",
  [DG + "::DAGraph.get_heads_id", DG + "::DAGraph.get_tails_id"])
p("Circular references are reported exactly when there is a cycle",
  "validate() reports CIRCULAR_REFS if and only if the graph has a directed cycle, and the reported ids include all the nodes of some cycle.",
  "all reachable graphs", "cycle detection over all graph shapes",
  [GV + "::GraphValidator.get_circular_dependencies", GV + "::GraphValidator.validate"])
p("Only nodes on cycles are reported as circular",
  "Every id listed under CIRCULAR_REFS lies on a directed cycle.",
  "all reachable graphs", "all graph shapes",
  [GV + "::GraphValidator.get_circular_dependencies"])
p("All paths, and only paths, are found",
  "On a valid graph get_all_paths(s, e, d) returns exactly the directed paths from s to e with at most d nodes, each once.",
  "all valid graphs, node pairs and depths", "all graph shapes and depths",
  [DG + "::DAGraph.get_all_paths"])
p("get_all_paths refuses invalid graphs",
  "get_all_paths raises ValueError if the graph has a cycle, has a head that is not of the input-root type, or does not contain one of the two nodes; otherwise it returns.",
  "all reachable graphs, ids and depths", "all graph shapes",
  [DG + "::DAGraph.get_all_paths", GV + "::GraphValidator.get_unconnected_nodes"])
p("Execution order respects dependencies",
  "On an acyclic graph sequential_order_of_execution lists every node exactly once, each after all its parents.",
  "all acyclic graphs", "all graph shapes",
  [DG + "::DAGraph.sequential_order_of_execution"])
# ---- spine graph
p("Graph ids keep element kinds apart",
  "Two elements get the same graph id only if they have the same kind and the same name; converting a graph id back gives the name it was made from.",
  "all names and kinds", "all strings",
  [SN + "::SpineGraphParser._to_graph_id", SN + "::SpineGraphParser._to_base_id"])
p("Graph of a skeleton converts back to the same skeleton",
  "For every skeleton JSON for which the graph can be built, to_json_data of the graph returns the same bones, slots and ik lists, in the same order.",
  "all skeleton documents", "unbounded documents",
  [SN + "::SpineGraphParser.create_from_json_data", SN + "::SpineGraphParser.to_json_data"])
p("Graph edges mirror the document's references",
  "In the graph built from a skeleton: a slot has exactly the attachments listed for it in some skin as children, an attachment has exactly the images of its occurrences as children, a slot's parent is its bone, and a bone's parent edge goes to its declared parent.",
  "all skeleton documents", "unbounded documents",
  [SN + "::SpineGraphParser.create_from_json_data", SN + "::SpineGraphParser.add_skin_attachments_to_slot", SN + "::SpineGraphParser.add_bone_to_graph"])
p("Duplicate element names are refused",
  "Building the graph raises ValueError when two bones, two slots or two ik constraints share a name, and never because of names shared between different kinds or of attachments shared between slots or skins.",
  "all skeleton documents", "unbounded documents",
  [SN + "::SpineGraphParser.create_from_json_data", DG + "::DAGraph.add_node"])
p("Recursive removal of leaves and heads is complete and minimal",
  "remove_leafs_of_type(t) terminates, removes only nodes of type t, leaves no leaf of type t, and removes a node only if it is of type t and all its children are removed too; remove_heads_of_type(t) likewise with parents.",
  "all reachable graphs and types", "fixpoint computation over all graph shapes",
  [GC + "::SpineGraphContainer.remove_leafs_of_type", GC + "::SpineGraphContainer.remove_heads_of_type"])
# ---- animation data
p("Alpha-zero slots",
  "For a slot whose color is eight hexadecimal digits RRGGBBAA, get_slots_with_alpha_zero lists it exactly when AA is 00; slots without color are not listed.",
  "all slots and colors", "2^32 colors, any list of slots",
  [AD + "::SpineAnimationData.get_slots_with_alpha_zero"])
p("Unused slots are exactly those invisible in every animation",
  "get_unused_slots_and_attachments reports a slot exactly when no animation makes it visible: an animation with a timeline for the slot makes it visible unless the timeline is empty, or the slot has alpha 0 and the timeline no color, or the slot has no setup attachment/color and the timeline shows nothing; an animation without a timeline for it makes it visible exactly when it is visible in the setup pose.",
  "all animation data", "all combinations of slots, timelines and keyframes",
  [AD + "::SpineAnimationData.get_unused_slots_and_attachments", AD + "::SpineAnimationData.get_visible_slots_and_attachments", SL + "::SlotTimeline.is_empty"])
p("Attachments in use are never reported unused",
  "get_unused_slots_and_attachments never reports an attachment that some animation shows on a slot it makes visible (by a keyframe or as the slot's setup attachment), and everything it reports is an attachment of some skin.",
  "all animation data", "all combinations",
  [AD + "::SpineAnimationData.get_unused_slots_and_attachments"])
p("Meshes of visible slots are kept",
  "No mesh attachment of a slot that stays visible is removed by a clean-up.",
  "all animation data", "all combinations of skins and slots",
  [AD + "::SpineAnimationData.get_unused_slots_and_attachments"])
p("The clean-up analysis never fails on consistent data",
  "get_unused_slots_and_attachments returns (raises nothing) on every data set whose slot colors are hexadecimal and whose animations only mention existing slots.",
  "all consistent animation data", "all combinations, in particular animations without slot timelines",
  [AD + "::SpineAnimationData.get_unused_slots_and_attachments"])
p("Removing a skin removes it and nothing else",
  "remove_skin(n) removes exactly the skins named n and the deform timelines of n; all other skins keep their slots and attachment names, and all their attachments other than linked meshes linked to n are unchanged; an unknown skin raises SpineJsonEditorError and changes nothing.",
  "all animation data and names", "all documents",
  [AD + "::SpineAnimationData.remove_skin"])
p("Linked meshes survive the removal of their skin",
  "After remove_skin(n) no linked mesh refers to skin n; each one that did has become a copy of its parent mesh in n with its own name, path, width and height.",
  "all animation data and names", "all documents",
  [AD + "::SpineAnimationData.remove_skin"])
p("Custom scale is the product of the name tags up to the root",
  "The scale of a slot is the product of the scale tags of the slot, its bone and all ancestors below 'root', and is found for every slot whose bone hierarchy leads to 'root'.",
  "all bone hierarchies of any depth", "unbounded hierarchies; termination",
  [AD + "::SpineAnimationData.get_bone_custom_scale_recursive", AD + "::SpineAnimationData.get_slot_custom_scale"])
p("Loading terminates",
  "SpineAnimationEditor(json) either returns or raises, for every JSON document.",
  "all JSON documents", "non-termination cannot be observed by a test",
  [AD + "::SpineAnimationData.get_bone_custom_scale_recursive", ED + "::SpineAnimationEditor.get_images_references"])
# ---- draw order
p("Draw order offsets stay in range",
  "After slots are removed, every remaining draw order offset names a surviving slot, is not zero, and moves it to a position inside the surviving slot list; no two offsets target the same position.",
  "all slot lists, draw orders and sets of removed slots", "all permutations and removals",
  [DO + "::DrawOrderTimeline.remove_offsets_with_ids"])
p("Draw order of the surviving slots is preserved",
  "After slots are removed, the draw order described by the new offsets on the surviving slots is the old draw order without the removed slots.",
  "all slot lists, valid draw orders and sets of removed slots", "all permutations and removals",
  [DO + "::DrawOrderTimeline._reorder_slots_with_offset", DO + "::DrawOrderTimeline._adjust_draw_oder_offset_with_erased_slots"])
p("Draw order semantics of the offsets",
  "For offsets with distinct in-range targets, the computed draw order puts every listed slot at its index plus its offset and keeps the unlisted slots in their relative order (the Spine runtime's rule).",
  "all slot lists and valid offsets", "all permutations",
  [DO + "::DrawOrderTimeline._reorder_slots_with_offset"])
# ---- editor
p("Erasing animations removes exactly the named ones",
  "After a successful erase_animations(names) the animations left are those not in names, in their order; in safe mode nothing else in the exported document changes.",
  "all documents, histories and name lists", "all documents",
  [ED + "::SpineAnimationEditor.erase_animations", ED + "::SpineAnimationEditor._erase_raw_animations_data"])
p("A refused erase has no effect",
  "If erase_animations in strict mode raises because a name is unknown, the document is unchanged.",
  "all documents and name lists", "all documents",
  [ED + "::SpineAnimationEditor._erase_raw_animations_data"])
p("Clean-up leaves no reference to a removed slot",
  "After a successful clean-up no skin, animation slot timeline, deform timeline or draw order mentions a removed slot, and no removed slot is in the slot list.",
  "all documents and histories", "all documents",
  [ED + "::SpineAnimationEditor.clean_animation", ED + "::SpineAnimationEditor.remove_slots"])
p("Clean-up leaves no reference to a removed attachment",
  "After a successful clean-up no skin, deform timeline of a skin, slot setup pose or animation keyframe mentions a removed attachment.",
  "all documents and histories", "all documents",
  [ED + "::SpineAnimationEditor.remove_attachments", ED + "::SpineAnimationEditor._clean_attachments_in_slots"])
p("Clean-up keeps everything else",
  "A successful clean-up keeps bones, ik, transform and path constraints, events, skin names and every surviving slot, attachment and timeline exactly as exported before, in the same order.",
  "all documents and histories", "all documents",
  [ED + "::SpineAnimationEditor.clean_animation"])
p("images_references covers every image in use",
  "After any history of successful operations every image needed by an attachment of a remaining skin is a key of images_references.",
  "all documents and histories of successful operations", "unbounded histories",
  [ED + "::SpineAnimationEditor.get_images_references", ED + "::SpineAnimationEditor._clean_images_references"])
p("images_references holds no unused image",
  "After any history of successful operations every key of images_references is used by some attachment of a remaining skin.",
  "all documents and histories of successful operations", "unbounded histories",
  [ED + "::SpineAnimationEditor.erase_skins", ED + "::SpineAnimationEditor._clean_images_references"])
p("Operations keep working after other operations",
  "After any history of successful operations, the internal graph stays in step with the document: clean-up never fails because a slot or attachment is missing from the graph.",
  "all documents and histories of successful operations", "unbounded histories",
  [ED + "::SpineAnimationEditor.clean_animation", GC + "::SpineGraphContainer.remove_slots", GC + "::SpineGraphContainer.remove_attachments"])
p("Scaling multiplies exactly the bones that need it",
  "scale_animation(sx, sy) multiplies scaleX and scaleY of 'root' and of every bone with transform noScale, noScaleOrReflection or onlyTranslation, each exactly once, and changes nothing else.",
  "all documents and factors", "all documents",
  [ED + "::SpineAnimationEditor.scale_animation", BO + "::Bone.scale"])
p("Scaling survives later operations",
  "The effect of scale_animation on the exported bones is not undone by later erase operations.",
  "all documents and histories", "interaction of operations over histories",
  [ED + "::SpineAnimationEditor.scale_animation", ED + "::SpineAnimationEditor.clean_animation"])
p("Clean-up is idempotent",
  "A clean-up directly after a clean-up removes nothing.",
  "all documents and histories", "all documents",
  [ED + "::SpineAnimationEditor.clean_animation"])
p("Results do not depend on set iteration order",
  "The exported document and images_references after any successful operation do not depend on the (hash-seed dependent) iteration order of Python sets; the reported lists are the same up to order.",
  "all documents, histories and iteration orders", "all iteration orders",
  [ED + "::SpineAnimationEditor.clean_animation"])
p("The editor accepts every version from 3.8 on",
  "A document that loads with version 3.8 also loads with any later version.",
  "all documents and versions", "all versions",
  [ED + "::SpineAnimationEditor.get_images_references", VT + "::SpineVersion.__ge__"])
p("The caller's JSON is never modified",
  "SpineAnimationEditor(json) and all later operations leave the caller's json object untouched.",
  "all documents and histories", "aliasing over all histories",
  [AD + "::SpineAnimationData.__init__", SN + "::SpineNodeData.__init__"])

# Exact statements replacing properties that turned out to be false as first stated.
p("Version operators compare component by component",
  "<, >, <= and >= on versions hold exactly when they hold for major, minor and patch separately; <= is a partial order, and >= and > are the converses of <= and <.",
  "all pairs and triples of versions", "all triples of integers",
  [VT + "::SpineVersion.__lt__", VT + "::SpineVersion.__le__", VT + "::SpineVersion.__ge__"])
p("Nothing is cleaned away for a real version",
  "For every version with a non-negative patch number, clean_unsupported leaves every document as it is.",
  "all documents and versions", "all documents and versions",
  [BT + "::SpineData.clean_unsupported_attributes", BT + "::SpineData.remove_unsupported_attributes"])
p("Export writes exactly the values that are not defaults",
  "The exported JSON of an element has key k with value v exactly when v is the element's attribute k, is not null and differs from the default; the one exception is the attachment keyframe's name, which is written when null.",
  "all classes, versions, elements and attributes", "all values of all classes",
  [BT + "::SpineData.to_json"])
p("An export can be read back exactly when it has bones, slots and required values",
  "load(export(x)) succeeds if and only if x has a bone, has a slot and no required attribute is null.",
  "all loadable documents", "all documents",
  [AD + "::JsonSpineAnimationData.load_data", AD + "::JsonSpineAnimationData.to_json_data"])
p("Attachment kinds that load",
  "Attachments of type mesh, path, linkedmesh or without type load with all values kept if their keys are known; those of type point, clipping, boundingbox or region are always refused.",
  "all attachments", "all key and value combinations",
  [SK + "::parse_skin_attachment_data", SK + "::SKIN_ATTACHMENTS_TYPES"])
p("Reported circular references lead to a cycle",
  "From every id listed under CIRCULAR_REFS a directed cycle can be reached.",
  "all reachable graphs", "all graphs",
  [GV + "::GraphValidator.get_circular_dependencies"])
p("Execution order lists the nodes connected to a head",
  "sequential_order_of_execution always returns; it lists exactly the nodes connected to a head (all nodes, on acyclic graphs), nodes with parents exactly once and heads at most twice, and no node twice if and only if no two heads are connected.",
  "all reachable graphs", "all graphs",
  [DG + "::DAGraph.sequential_order_of_execution"])
p("Execution order of forests is topological",
  "On an acyclic graph whose nodes have at most one parent, sequential_order_of_execution lists every node exactly once, each after its parent.",
  "all forests", "all graphs",
  [DG + "::DAGraph.sequential_order_of_execution"])
p("Exactly when the draw order of the surviving slots is preserved",
  "After slots are removed, the new offsets describe the old draw order without the removed slots if and only if the surviving slots without a new offset keep their relative order; in particular whenever no listed surviving slot ends up in its original place.",
  "all slot lists, valid draw orders and sets of removed slots", "all permutations and removals",
  [DO + "::DrawOrderTimeline.remove_offsets_with_ids", DO + "::DrawOrderTimeline._adjust_draw_oder_offset_with_erased_slots"])

p("When a graph id converts back to its name",
  "The name recovered from the graph id of an element is the element's name if and only if '_KIND' does not occur in the name.",
  "all kinds and names", "all strings",
  [SN + "::SpineGraphParser._to_graph_id", SN + "::SpineGraphParser._to_base_id"])

p("Exactly when the clean-up analysis returns",
  "get_unused_slots_and_attachments returns if and only if all slot colors are hexadecimal, and every animation mentions only existing slots with a non-empty name and has a slot timeline unless some slot is visible in the setup pose.",
  "all animation data with distinct slot names", "all combinations of slots and timelines",
  [AD + "::SpineAnimationData.get_unused_slots_and_attachments"])
p("Exactly which attachments are reported unused",
  "An attachment name is reported exactly when no animation shows it on a slot it makes visible, and some skin has an attachment of that name that is not a mesh or belongs to an unused slot.",
  "all animation data with distinct slot names", "all combinations of skins, slots and timelines",
  [AD + "::SpineAnimationData.get_unused_slots_and_attachments"])
p("What becomes of linked meshes when their skin is removed",
  "remove_skin(n) of an existing skin succeeds if and only if for every mesh linked to n the removed skin has an attachment under the same slot and key; the mesh becomes a copy of that attachment with its own name, path, width and height. No mesh linked to n remains if n has no mesh linked to itself.",
  "all animation data and names", "all documents",
  [AD + "::SpineAnimationData.remove_skin"])
p("What remove_skin reports",
  "The reported images are the images of the removed skin's meshes and the paths of its typed attachments other than plain images; the reported attachments are exactly its plain images with slot, key and image name.",
  "all animation data and names", "all documents",
  [AD + "::SpineAnimationData.remove_skin"])
p("Exactly when loading does not terminate",
  "SpineAnimationEditor(json) returns or raises unless a slot that has attachments in a skin hangs on a bone whose ancestors run into a cycle; looking up the scale of such a slot never ends.",
  "all JSON documents", "non-termination cannot be observed by a test",
  [AD + "::SpineAnimationData.get_bone_custom_scale_recursive", ED + "::SpineAnimationEditor.get_images_references"])

p("What a strict erase does",
  "erase_animations(names, strict) behaves like the non-strict call if every name is found; otherwise it raises ValueError, and the named animations that exist are gone from the document, which is otherwise unchanged.",
  "all editors after any history, all lists of names", "all documents and histories",
  [ED + "::SpineAnimationEditor.erase_animations"])
p("Slots after a clean-up",
  "After a successful clean-up no skin, slot timeline, deform timeline or draw order mentions a reported slot. If no slot name contains '_SLOT', the slot list is the old one without the reported slots; otherwise a reported slot is gone, or another slot whose name contains '_SLOT' is gone instead.",
  "all editors after any history, all iteration orders", "all documents and histories",
  [ED + "::SpineAnimationEditor.clean_animation"])
p("Attachments after a clean-up",
  "After a successful clean-up no skin and no deform timeline of a skin mentions a reported attachment, nor does a setup pose if names do not end in '_ATTACHMENT'; a keyframe that names it is in a timeline that hides its slot (or the name is 'None').",
  "all editors after any history, all iteration orders", "all documents and histories",
  [ED + "::SpineAnimationEditor.clean_animation", ED + "::SpineAnimationEditor.remove_slots"])
p("What a clean-up keeps",
  "A successful clean-up keeps the header, ik, transform and path constraints, events, and every slot, attachment, timeline and deform timeline that is not reported, in order; the draw orders are those of C37; the exported bones are those of the time the graph was last built.",
  "all editors after any history with plain names, all iteration orders", "all documents and histories",
  [ED + "::SpineAnimationEditor.clean_animation"])
p("images_references covers every image in use",
  "If no image name contains '_IMAGE', after any history of successful operations every image needed by an attachment of a remaining skin is a key of images_references.",
  "all documents with plain image names, all histories", "all documents and histories",
  [ED + "::SpineAnimationEditor.get_images_references"])
p("images_references is exact for tidy documents",
  "If same-named attachments share their image, every attachment names its image, there is no path attachment and names are plain, then after any history of successful operations the keys of images_references are exactly the images in use.",
  "all tidy documents, all histories", "all documents and histories",
  [ED + "::SpineAnimationEditor.get_images_references"])
p("Exactly when a clean-up works",
  "For documents with plain slot names, hexadecimal colors, and timelines and draw orders of existing slots, a clean-up after any history succeeds if some slot is visible in the setup pose or every animation has a slot timeline; otherwise it raises and changes nothing.",
  "all such documents, all histories and iteration orders", "all documents and histories",
  [ED + "::SpineAnimationEditor.clean_animation"])
p("Exactly what scaling does",
  "scale_animation succeeds if and only if a bone is called root and all factors can be multiplied. It multiplies bones with transform noScale, noScaleOrReflection or onlyTranslation once, and root once more, and changes nothing else. Without root it raises AttributeError after scaling the others.",
  "all editors after any history, all factors", "all documents and histories",
  [ED + "::SpineAnimationEditor.scale_animation", BO + "::Bone.scale"])
p("Which bones are exported",
  "erase_skins and a safe erase_animations keep the exported bones; a clean-up and an unsafe erase_animations export the bones as they were when the graph was last built (on loading or before the last erase_skins), undoing any scaling since.",
  "all editors after any history", "all documents and histories",
  [ED + "::SpineAnimationEditor.clean_animation", ED + "::SpineAnimationEditor.erase_skins"])
p("A clean-up after a clean-up",
  "If a clean-up removes unused slots only (none merely because its attachments went), a second clean-up leaves the editor as it is, reporting nothing or raising; plain names assumed.",
  "all editors after any history, all iteration orders", "all documents and histories",
  [ED + "::SpineAnimationEditor.clean_animation"])
p("Versions a document loads with",
  "A document that loads with a version that is at least 3.8 loads with another version if and only if that version is at least 3.8 as the library compares versions, or the document has no skins; if so with at least 3.8, the editor differs in the version only.",
  "all documents and versions", "all documents",
  [ED + "::SpineAnimationEditor.__init__", VT + "::SpineVersion.__ge__"])
p("Exactly what a clean-up removes",
  "A clean-up reports a slot exactly when no animation shows it or all its skin attachments are reported (in particular if it has none), and an attachment name exactly when no animation shows it and some attachment of that name is not a mesh or is on an unused slot. The skin attachments left are exactly those with neither slot nor name reported.",
  "all editors after any history (plain slot names for the slots), all iteration orders", "all documents and histories",
  [ED + "::SpineAnimationEditor.clean_animation", AD + "::SpineAnimationData.get_unused_slots_and_attachments"])
p("What no operation changes",
  "No history of successful operations changes the exported ik constraints, the transform and path constraints, the events, the header, the version or the names of the bones.",
  "all documents and histories", "all documents and histories",
  [ED + "::SpineAnimationEditor.clean_animation", ED + "::SpineAnimationEditor.erase_skins", ED + "::SpineAnimationEditor.erase_animations"])

p("Erasing skins safely: outcome",
  "erase_skins in safe mode removes exactly the named skins and their deform timelines, makes copies of meshes linked to them, changes nothing else of the document, and reports exactly the images of the erased skins that no attachment left has. It fails with an editor error at the first name that is not (or no longer) a skin. With no linked meshes it succeeds exactly if the names are distinct and known. In either mode the names of the skins left are those not erased, in order.",
  "all editors after any history, all name lists", "all documents, histories and name lists",
  [ED + "::SpineAnimationEditor.erase_skins", AD + "::SpineAnimationData.remove_skin"])
p("Erasing with a clean-up is erasing and then cleaning up",
  "erase_skins and erase_animations with safe mode off give the same editor, report and error as the call in safe mode followed by clean_animation.",
  "all editors after any history, all name lists, all iteration orders", "relates two runs for all inputs",
  [ED + "::SpineAnimationEditor.erase_skins", ED + "::SpineAnimationEditor.erase_animations"])
p("A failed erase_skins changes nothing",
  "If erase_skins raises an error, the skins of the document are as before the call.",
  "all editors and name lists", "all documents and name lists",
  [ED + "::SpineAnimationEditor.erase_skins"])
p("Entries of images_references",
  "On loading, images_references has an entry for exactly the images in use: the path is the images folder of the header (./images/ by default) joined with the image, and the scale, if it is not 1, is the custom scale of the slot of the last use in skin order. No later call adds, changes or reorders entries. In tidy documents the entries at any time are those of the images still in use.",
  "all documents and histories", "all documents and histories",
  [ED + "::SpineAnimationEditor.get_images_references", ED + "::SpineAnimationEditor._clean_images_references"])
p("Scales of images_references stay current",
  "After any history, the scale in the entry of an image is the custom scale of some slot that has the image.",
  "all documents and histories", "all documents and histories",
  [ED + "::SpineAnimationEditor.get_images_references"])

p("Exported documents share nothing with the editor",
  "to_json_data changes no existing object, and every object reachable from the exported document is new, so neither side sees later changes of the other. It has the values of the objects exported, without the defaults, and the header in the place of skeleton.",
  "all object graphs, all default tables", "aliasing for all object graphs",
  [AD + "::JsonSpineAnimationData.to_json_data", BT + "::SpineData.traverse_spine_data"])
p("Deep copies",
  "The copy.deepcopy used for loading always ends, changes no existing object and gives an object that reaches only new objects and has the value of the original, with sharing and cycles.",
  "all object graphs", "aliasing for all object graphs",
  [AD + "::JsonSpineAnimationData.__init__", AD + "::SpineAnimationData.__init__"])

p("Attributes of a loaded element",
  "After loading, an attribute of an element is the value given in the document if it is there and not null, else the default the class declares for the version (SPINE_3_8_DEFAULT_VALUES if every component of the version is at least that of 3.8.0, else DEFAULT_VALUES), else None. The known attributes, required attributes and defaults are those declared in the classes, for every class.",
  "all classes, versions and element dictionaries", "all classes, versions and inputs",
  [BT + "::SpineData.set_default_values_from_version", BT + "::SpineData.default_values"])
p("Traversals reach every element",
  "Setting defaults, cleaning unsupported attributes and exporting reach every element of a document at every depth (timelines, deforms and attachments included), use the tables of the element's own class, and never raise on a document. After loading, no element at any depth has None where its class has a default for the version.",
  "all documents, versions and nested objects", "unbounded nesting and all shapes",
  [BT + "::SpineData.traverse_spine_data"])

p("Exactly which strings are versions",
  "SpineVersion(s) succeeds with (a, b, c) exactly if s is two or three integer literals of Python joined by dots (c = 0 if missing); every other string raises ValueError.",
  "all strings", "all strings",
  [VT + "::SpineVersion.validate", VT + "::SpineVersion.split_version"])
p("Exactly which names carry a scale",
  "A name has no tags if nothing in it matches '[word : value]'; it has the scale f exactly if there is one match, its word is 'scale' and its value is a float literal of f. The scale of a slot or bone name is f, or 1 without tag. Every other name raises ValueError.",
  "all names", "all strings",
  [UT + "::get_tags_from_name", SL + "::Slot.get_scale_in_name", BO + "::Bone.get_scale_in_name"])
p("Exactly which texts are read as JSON documents",
  "json.loads as used for loading accepts exactly the texts of the JSON grammar (with Python's NaN and Infinity) and returns their unique value, the last one for repeated keys; other texts raise ValueError.",
  "all texts", "all texts",
  [ED + "::SpineAnimationEditor.from_json_file"])
p("Numbers are rounded correctly",
  "The float read from a decimal text and the product of two floats are the nearest float to the exact value, ties to even, infinite on overflow; there is one such float.",
  "all decimal numbers, all finite floats", "all floats",
  [ED + "::SpineAnimationEditor.scale_animation", UT + "::cast_element"])
p("A cast gives a value of the type asked for",
  "cast_element(v, 'boolean') returns a boolean if it returns.",
  "all values", "all values",
  [UT + "::cast_element"])
p("Exactly what casts give",
  "cast_element to number is the float the value stands for, to integer its whole part, to string the spelling of strings, integers, booleans and None, to boolean the boolean itself or the one spelled in any case (other strings unchanged). The only errors are TypeError (a number from None, a list or a dict), ValueError (a number from other texts, an integer from nan, a boolean from anything else) and OverflowError (an integer beyond the floats, an integer from an infinity).",
  "all values", "all values",
  [UT + "::cast_element"])
p("A saved document is read back",
  "If to_json(path) succeeds, reading the file gives the exported document, and from_json_file(path) does the same as constructing an editor from the exported document. The text is ASCII and JSON of the document. Loaded JSON, any calls in between (also ones that raised), any path.",
  "all documents read from JSON texts, all calls with JSON arguments, all paths and file systems", "all documents, histories and paths",
  [ED + "::SpineAnimationEditor.to_json", ED + "::SpineAnimationEditor.from_json_file"])
p("Saving touches only the file and missing directories",
  "to_json and save_images_json, if they succeed, create missing directories and write one file and change nothing else. If they fail, it is with OSError (or ValueError for a NUL in the path), no file is changed or created, and at most directories are created.",
  "all editors, paths and file systems", "all paths and file systems",
  [ED + "::SpineAnimationEditor.to_json", ED + "::SpineAnimationEditor.save_images_json"])
p("Saving to a file in the current directory works",
  "to_json(name) with a bare file name succeeds if the current directory exists and the name is free.",
  "all editors and names", "all file systems",
  [ED + "::SpineAnimationEditor.to_json"])
p("Exactly what saving to a path does",
  "For a path made of names only, with a directory part: the call raises FileExistsError if the parent is a file, NotADirectoryError if a place above it is a file, IsADirectoryError if the target is a directory, each with nothing changed; else it succeeds, all places above the target are directories, the target has the text, and the rest is as before. A bare name always raises FileNotFoundError.",
  "all editors, paths of plain names and file systems", "all paths and file systems",
  [ED + "::SpineAnimationEditor.to_json", ED + "::SpineAnimationEditor.save_images_json"])
p("Exactly what loading from a path does",
  "from_json_file(path) gives an editor exactly if the file can be read, its text is JSON of a document, and constructing an editor from it succeeds. Reading a path of names gives the text of the file there, and otherwise the OSError for a directory, a file on the way or a missing file.",
  "all paths and file systems", "all paths and file systems",
  [ED + "::SpineAnimationEditor.from_json_file"])
p("Saved image references are read back",
  "If save_images_json(path) succeeds, reading the file as JSON gives images_references.",
  "all documents read from JSON texts, all calls with JSON arguments, all paths", "all documents, histories and paths",
  [ED + "::SpineAnimationEditor.save_images_json"])
p("The text of a graph is read back",
  "If SpineGraphParser.to_json succeeds on the graph of an editor, its text is JSON of the lists of bones, slots and ik constraints to_json_data returns.",
  "all documents read from JSON texts, all calls with JSON arguments", "all documents and histories",
  [SN + "::SpineGraphParser.to_json"])

p("What an editor exports can be loaded again",
  "After any sequence of successful calls, an editor can be built from what to_json_data returns.",
  "all documents and sequences of calls", "all documents and histories",
  [ED + "::SpineAnimationEditor.to_json_data", ED + "::SpineAnimationEditor.__init__"])
p("Exactly when what an editor exports can be loaded again",
  "After any sequence of successful calls, an editor can be built from what to_json_data returns exactly if there is a slot, no bone of a slot and no draw order offset is null, no attachment has a value for an attribute that its class does not declare, and every slot under which a skin files attachments exists. The skeleton and version are then the same, and, unless a draw order without a time is exported before 3.8, all elements have equal attributes and the export is the same again. For documents whose slot names do not contain the graph's suffix and which have no path attachments, whatever could be loaded again before the calls can be after them as long as a slot is left.",
  "all documents and sequences of calls", "all documents and histories",
  [ED + "::SpineAnimationEditor.to_json_data", ED + "::SpineAnimationEditor.__init__", ED + "::SpineAnimationEditor.clean_animation", ED + "::SpineAnimationEditor.erase_skins"])

p("The numbers a graph counts with",
  "nodes_id_generator starts at 0. generate_unique_id, and every add_node (also when the caller gives the id, and also when it raises), moves it to the least greater number whose decimal is not the id of a node; that decimal is the id returned, the order of the new node and, without a given id, its id. Other calls leave it. nodes_counter is the number of nodes ever added. If no caller gives an id, the ids made up are 1, 2, 3, and so on.",
  "all histories of calls on a graph", "all histories, all gaps in the numbers",
  [DG + "::DAGraph.generate_unique_id", DG + "::DAGraph.add_node"])
p("Which nodes of a Spine graph can be connected",
  "In a graph with the Spine factory, however it was made, every node is a bone, slot, IK constraint, attachment or image, and add_edge between two different nodes succeeds exactly if the child is a bone, slot, ik or image of a bone, a slot, attachment or image of a slot, a bone or slot of an IK constraint, or a slot or image of an attachment.",
  "all histories of calls on a graph with the Spine factory", "all histories",
  [SN + "::SpineNodeFactory.create_node", DG + "::DAGraph.add_edge"])
p("Exactly how any draw order keyframe is rewritten",
  "For any integers as offsets (out of range, repeated slots, equal targets): remove_offsets_with_ids takes the slots without an offset in their order, inserts the others (each with the last offset listed for it) one after the other by increasing target, equal targets in slot order, as list.insert does (a negative place counts from the end, and is cut to the list); the new offset of each listed slot that is not removed is the difference of its places among the slots not removed, offsets 0 are dropped, and the entries stay in the order in which they were first listed.",
  "all slots, keyframes with integer offsets and removed slots", "all integers",
  [DO + "::DrawOrderTimeline.remove_offsets_with_ids"])

p("Erasing animations never brings a slot or attachment into use",
  "A slot or attachment that get_unused_slots_and_attachments reports before a safe erase_animations is reported after it (whether it raises or not); the analysis does not start to fail. If slot names do not contain the graph's suffix, everything that clean_animation would report removed is among what erase_animations with a clean-up reports.",
  "all documents, sequences of calls and lists of names", "all documents and histories",
  [ED + "::SpineAnimationEditor.erase_animations", AD + "::SpineAnimationData.get_unused_slots_and_attachments"])
p("A clean-up of a document without animations empties it",
  "If no animation is left (or all are erased by the call) and slot names do not contain the graph's suffix, a clean-up that succeeds leaves no slot and no attachment, even those shown in the setup pose, and what the editor then exports cannot be loaded.",
  "all documents and sequences of calls", "all documents and histories",
  [ED + "::SpineAnimationEditor.clean_animation", ED + "::SpineAnimationEditor.erase_animations"])
p("Safe erasing of animations and skins commutes",
  "A safe erase_animations and a safe erase_skins in either order leave the same editor (document, images and graph), give the same reports, and fail in the same cases with the same error; also when one of them fails.",
  "all editors and lists of names", "all states and arguments",
  [ED + "::SpineAnimationEditor.erase_animations", ED + "::SpineAnimationEditor.erase_skins"])
p("Erasing skins in one call or in two leaves the same editor",
  "A safe erase_skins of two lists of names in one call leaves the same document and images_references as two calls, one for each list.",
  "all documents, sequences of calls and lists of names", "all documents and histories",
  [ED + "::SpineAnimationEditor.erase_skins"])
p("What differs if skins are erased in two calls",
  "One safe erase_skins call succeeds exactly if two calls with the parts of the list do. The document and the graph are then the same; images_references after the one call are those after the two calls without some entries, and the same if every attachment names its image, attachments of a name share it, and none is a path. For erase_animations there is no difference at all.",
  "all documents, sequences of calls and lists of names", "all documents and histories",
  [ED + "::SpineAnimationEditor.erase_skins", ED + "::SpineAnimationEditor.erase_animations"])
p("Erasing nothing",
  "A safe erase_animations([]) changes nothing and returns what to_json_data returns. A safe erase_skins([]) keeps the document and the images; it builds the graph again, and that is the graph of an editor that loads the export (if it can be loaded; for exports before 3.8, if no draw order lacks a time).",
  "all documents and sequences of calls", "all documents and histories",
  [ED + "::SpineAnimationEditor.erase_animations", ED + "::SpineAnimationEditor.erase_skins"])
p("Scaling before or after erasing skins makes no difference",
  "If scale_animation and a safe erase_skins are called in either order, the same further calls export the same.",
  "all documents and sequences of calls", "all documents and histories",
  [ED + "::SpineAnimationEditor.scale_animation", ED + "::SpineAnimationEditor.erase_skins", ED + "::SpineAnimationEditor.clean_animation"])
p("Scaling before or after safe erasing gives the same document",
  "scale_animation and a safe erase_skins that succeed give, in either order, the same document, the same images_references and the same set of reported images. With a safe erase_animations the whole editor is the same, also when one of the calls fails.",
  "all documents, sequences of calls, scales and lists of names", "all documents and histories",
  [ED + "::SpineAnimationEditor.scale_animation", ED + "::SpineAnimationEditor.erase_skins", ED + "::SpineAnimationEditor.erase_animations"])

p("Exact layout of the texts written",
  "The file to_json writes has, for every list and dict that is not empty, one line for its start, one for each part and one for its end, each indented by four spaces per level, parts divided by commas, keys followed by a colon and a space, in the order of the document. save_images_json and SpineGraphParser.to_json write the same pieces on one line with comma and space. Strings are ASCII, with the escapes of JSON.",
  "all editors, paths and file systems", "the text of every value",
  [ED + "::SpineAnimationEditor.to_json", ED + "::SpineAnimationEditor.save_images_json", SN + "::SpineGraphParser.to_json"])
p("Equality of JSON values",
  "The == used to drop defaults and compare values is: the same exact number for bool, int and float; the same text; lists of the same length and dicts of the same keys with equal parts, in any order of keys. It is symmetric and transitive on all values, and reflexive exactly without NaN.",
  "all JSON values", "all values, in any depth",
  [BT + "::SpineData.to_json"])
p("Exactly which colors of slots are accepted, and which are transparent",
  "get_slots_with_alpha_zero returns exactly if every color of a slot is, after an optional underscore, a row of hexadecimal digits (of any length and script, with single underscores between them) with only blanks behind it, and raises ValueError otherwise. It then lists exactly the names of the slots whose color is a multiple of 256.",
  "all skeletons and all color strings", "all strings of any characters and length",
  [AD + "::SpineAnimationData.get_slots_with_alpha_zero"])

p("Products of scales",
  "Multiplying the scale of a bone by the argument of scale_animation gives: the exact product of two ints (True and False count as 1 and 0); for two floats, or a float and an int, the float nearest to the exact product of the two floats (ties to even, with the rules of IEEE 754 for infinity, zero and NaN), where an int is first rounded to the nearest float; that many copies for a string or list and an int. It raises OverflowError exactly if an int is too large for a float, or for a count, and TypeError in all other cases.",
  "all pairs of JSON values", "all numbers, in particular all pairs of floats",
  [BO + "::Bone.scale", ED + "::SpineAnimationEditor.scale_animation"])

p("Floats are written in the shortest form that is read back",
  "A finite float in a written document is spelled with as few significant digits as any number has that is read as this float; among those numbers it is the one nearest to the float, and of two equally near ones the even one. The point is placed without exponent from 0.0001 up to below 1e16, and with an exponent of at least two digits otherwise. Each float has exactly one such text, reading it gives exactly the float, and different floats have different texts.",
  "all finite binary64 floats", "2^64 floats",
  [ED + "::SpineAnimationEditor.to_json", ED + "::SpineAnimationEditor.save_images_json"])
p("The texts of values in casts and node ids",
  "cast_element(value, 'string') and the ids of nodes ('<value>_<kind>') contain exactly str(value): strings as they are; None, True, False; ints in decimal; floats as in C121, or inf, -inf, nan; lists and dicts with the repr of their parts, in their order, in brackets with comma and space. Strings inside are in single quotes (double ones if they contain single but no double ones), with escapes for the quote, the backslash and characters that are not printable; different strings are shown differently.",
  "all JSON values", "all values, in any depth, and all Unicode strings",
  [UT + "::cast_element", SN + "::SpineGraphParser.create_from_json_data"])

p("Comparing a version with anything",
  "A SpineVersion compared (==, !=, <, >, <=, >=) with a string is compared with the version the string spells, also with the string on the left; a string that is no version raises ValueError. Compared with any other value, even by == or !=, it raises AttributeError. What the operators say: == all components are equal, != not all, each other operator that it holds of all three components.",
  "all versions, all operators, all values on either side", "all strings and values",
  [VT + "::SpineVersion.__eq__", VT + "::SpineVersion.__lt__", VT + "::SpineVersion.__ge__"])
p("The order of __cmp__",
  "SpineVersion.__cmp__ is -1, 0 or 1 as the version is released before, is the same as, or is released after the other one, if minor and patch numbers are below 1000; for larger ones it is not (3.8.1000 counts as 3.9.0). A string stands for the version it spells. str() of a version is the text it was made from.",
  "all versions", "all triples of numbers",
  [VT + "::SpineVersion.__cmp__", VT + "::SpineVersion.__str__"])

p("What to_json_data writes for any graph",
  "For a graph made by any calls of the API whose nodes have data, to_json_data succeeds exactly if each node is a BONE, SLOT, IK, ATTACHMENT or IMAGE, and raises KeyError otherwise. The lists 'slots', 'bones' and 'ik' are the data of the nodes of that kind, each exactly once, sorted by their index; nodes with the same index stay in the order of the graph. There is exactly one such list.",
  "all graphs after any history of calls", "all histories of calls, all numbers of nodes, all indices with repetitions",
  [SN + "::SpineGraphParser.to_json_data"])

p("Which exception refuses a clean-up",
  "clean_animation first reads all colors, then looks at the animations in their order. It raises ValueError if a slot has a color that is not hexadecimal; else KeyError if the first animation at fault has a timeline of a slot that does not exist (or has the empty name), TypeError if that animation has no slot timelines while no slot is visible in the setup pose. There is no other fault, and the editor is unchanged in all three cases.",
  "all loaded documents, after any history of calls", "all documents and histories",
  [ED + "::SpineAnimationEditor.clean_animation", AD + "::SpineAnimationData.get_unused_slots_and_attachments"])
p("What a clean-up that fails in the draw orders leaves behind",
  "If the analysis succeeds, clean_animation fails exactly if some draw order key moves an existing slot by something that is not an int, or has an entry without slot or of a slot that does not exist. For the first such key it raises TypeError or ValueError. By then the slots to remove are gone from the slot list and from the skins, and the draw orders before that key are rewritten; that key, the later ones, the attachments of other slots and the images are as before. Slots without bone are no reason: a slot with attachments always has one, and the others are removed.",
  "all loaded documents in which no slot name contains '_SLOT', after any history of calls", "all documents and histories",
  [ED + "::SpineAnimationEditor.clean_animation", ED + "::SpineAnimationEditor._clean_draw_order_refs", DO + "::DrawOrderTimeline.remove_offsets_with_ids"])

p("What a scaling that fails leaves behind",
  "scale_animation changes nothing but the bones. If it fails for a bone with its own scale, the bones with their own scale before it are multiplied, the bone itself is unchanged or has only scaleX multiplied, and the later ones are unchanged. If it fails for the bone 'root' at the end, all bones with their own scale are multiplied, and of root at most scaleX once more. If there is no bone 'root' it raises AttributeError after all bones with their own scale are multiplied. The exception is the one of the product (C120).",
  "all loaded documents, after any history of calls, all arguments", "all documents and all values as factors",
  [ED + "::SpineAnimationEditor.scale_animation", BO + "::Bone.scale"])
p("The exceptions of the calls on an editor",
  "Once a document is loaded, every call ends, and raises only: clean_animation ValueError, KeyError or TypeError; erase_skins the editor's own exception or KeyError, and without safe mode also those of clean_animation; erase_animations ValueError in strict mode, and without safe mode also those of clean_animation; scale_animation TypeError, OverflowError or AttributeError.",
  "all loaded documents, after any history of calls, all arguments", "all documents, histories and arguments",
  [ED + "::SpineAnimationEditor.clean_animation", ED + "::SpineAnimationEditor.erase_skins", ED + "::SpineAnimationEditor.erase_animations", ED + "::SpineAnimationEditor.scale_animation"])

p("Which documents load",
  "A JSON document loads exactly if it is an object with a 'skeleton' object whose 'spine' is a version text (C91), all other keys are attributes of SpineAnimationData, 'bones', 'slots' and 'skins' are there, and each part consists of valid elements: objects whose keys are all declared and include all required ones (null, false, 0 and empty values count as the empty object, for ik and transform only null), in lists or what a for loop takes for a list, resp. in objects; attachments have no type or type mesh, linkedmesh or path. The skeleton and the version are those of the document. An editor can be made of it exactly if moreover there are bones, names of bones, of slots and of iks are unique, no bone is its own parent, each ik has a name and bones, the version is at least 3.8 in each component if there are skins, each slot named in a skin exists and has a scale (C35), and the image folder is a string if there is an image.",
  "all JSON documents in which names are strings or null; for the editor, those without repeated keys", "all documents: every part in any JSON type, any nesting",
  [AN + "::Animation", AD + "::JsonSpineAnimationData", ED + "::SpineAnimationEditor.__init__", SK + "::parse_skin_attachment_data"])
p("The errors for documents of the right JSON types",
  "If objects, lists and names are where they are expected, and 'bones', 'slots' and 'skins' are there, a document is refused only with the library's own exceptions for unsupported or missing attributes (which name at least one) or with ValueError (for the version or the type of an attachment). No KeyError, TypeError, AttributeError or IndexError escapes.",
  "all such documents, with any fields, field values and attachment types", "all documents",
  [AD + "::JsonSpineAnimationData", SK + "::parse_skin_attachment_data"])

p("Removing slots and attachments of the graph by their names",
  "remove_slots(names) and remove_attachments(names) of a SpineGraphContainer remove the nodes '<name>_SLOT' and '<name>_ATTACHMENT' one after the other. If the names are different and all nodes of the graph, these nodes and their edges are gone, the rest is unchanged, and the removed nodes are returned in the order of the names, each with its id, type and data and with the edges it had when its turn came. Otherwise ValueError is raised at the first name that is no node or was listed before; the ones before it are gone and nothing else.",
  "all graphs built by any sequence of calls, all lists of names", "all graphs and lists",
  [GC + "::SpineGraphContainer.remove_slots", GC + "::SpineGraphContainer.remove_attachments"])
p("The editor's remove_slots and remove_attachments, called directly",
  "SpineAnimationEditor.remove_slots(ids, original) takes the slots ids out of the skins, the slot timelines and the deform timelines, and rewrites every draw order (C37, C38, C62) for the list of original slots; the slot list, the graph, the images, bones and all other timelines stay. It raises at the first draw order that moves an original slot by something that is no int (TypeError) or that lists a slot that is neither an original one nor removed (ValueError); the draw orders from there on are as before, the rest is done. remove_attachments(ids) always works: attachments filed under ids go from all skins and from the deforms filed under the names of skins; a slot loses its setup attachment a exactly if '<a>_ATTACHMENT' (not a) is in ids; all else stays.",
  "all editors after any history of successful calls, all lists of ids, all lists of original slots without repetition", "all histories, documents and lists",
  [ED + "::SpineAnimationEditor.remove_slots", ED + "::SpineAnimationEditor.remove_attachments"])
p("A clean-up that failed can be tried again once its cause is gone",
  "If clean_animation raises because of a draw order, the animation at fault can be erased and clean_animation called again: it then works if it would have worked with that animation erased first.",
  "all loaded documents, after any history of calls", "all documents and histories",
  [ED + "::SpineAnimationEditor.clean_animation", ED + "::SpineAnimationEditor.erase_animations"])
p("Clean-ups after a clean-up that failed",
  "After a clean_animation that raised, calling it again at once raises again. If it raised while rewriting the draw orders, the unused attachments are already gone from the editor's graph but not from the document: as long as the graph is not built again (after any calls of scale_animation and of erase_animations in safe mode, also failed ones), clean_animation raises ValueError whenever one of these attachments is still unused.",
  "all loaded documents, after any history of successful calls and one failed clean-up; slot names do not contain '_SLOT'; the document can be analysed (C126)", "all documents, histories and set orders",
  [ED + "::SpineAnimationEditor.clean_animation", ED + "::SpineAnimationEditor.erase_animations"])
p("Going on after exceptions",
  "A caller that catches every exception of erase_skins, erase_animations, clean_animation and scale_animation and goes on meets no others than those of C129, whatever calls failed before and wherever they stopped. The version, the bones' names, parents and order and the ik constraints stay as loaded; slot names stay unique, and each slot is a loaded one, at most without its setup attachment. erase_skins([]) in safe mode always works, changes nothing of the document and the images, and builds the graph of the document as it is.",
  "all loaded documents, after any history of calls, successful and failed, all arguments", "all documents, histories with failures at any point, and set orders",
  [ED + "::SpineAnimationEditor.clean_animation", ED + "::SpineAnimationEditor.erase_skins", ED + "::SpineAnimationEditor.erase_animations", ED + "::SpineAnimationEditor.scale_animation"])
p("Building the graph again repairs an editor",
  "After any calls, failed or not, erase_skins([]) in safe mode leaves document and images as they are and puts the graph in step with them: the clean_animation after it works exactly if the document can be analysed (C126) and every draw order is sound (C127); it then reports and removes exactly the slots that no animation shows or of which all attachments go, and exactly the attachments that nothing shows. Otherwise it raises as a clean-up after successful calls does, and leaves the same half-cleaned document.",
  "all loaded documents whose slot names do not contain '_SLOT', after any history of calls, successful and failed; all set orders", "all documents, histories with failures at any point, and set orders",
  [ED + "::SpineAnimationEditor.clean_animation", ED + "::SpineAnimationEditor.erase_skins"])
p("Saving and loading again after calls that failed",
  "What an editor exports after any calls, failed or not, can be loaded again exactly if it has slots, no required value is null, attachments have only attributes of their class, and skins file attachments under existing slots; with slot names without '_SLOT', no path attachments and a document that could be saved and loaded before, exactly if it has slots. Then skeleton, version and data are the same (up to attributes with default values) and the export of the loaded editor is the same.",
  "all loaded documents, after any history of calls, successful and failed; for the last part version 3.8 or no draw order with time null", "all documents and histories with failures at any point",
  [ED + "::SpineAnimationEditor.__init__", ED + "::SpineAnimationEditor.to_json", ED + "::SpineAnimationEditor.clean_animation", ED + "::SpineAnimationEditor.erase_skins"])
p("images_references covers every image in use, also after calls that failed",
  "After any calls, failed or not, every image needed by an attachment of a remaining skin is a key of images_references (C73 without the condition that the calls succeeded).",
  "all documents with plain names, all sequences of calls", "all documents and sequences of calls, failures included",
  [ED + "::SpineAnimationEditor.clean_animation", ED + "::SpineAnimationEditor._clean_images_references"])
p("images_references and calls that fail",
  "A call of erase_skins, erase_animations, clean_animation or scale_animation that raises leaves images_references as it was. After any calls, failed or not, images_references has some of the entries it had on loading, unchanged and in their order.",
  "all editors and calls; all documents and sequences of calls", "all documents and sequences of calls, failures included",
  [ED + "::SpineAnimationEditor._clean_images_references", ED + "::SpineAnimationEditor.erase_skins", ED + "::SpineAnimationEditor.erase_animations"])
p("images_references and a caller that builds the graph again after failures",
  "After any calls, failed or not, every image needed by an attachment of a remaining skin is a key of images_references, provided that between a call that raised and the next clean_animation (or erase_animations with automatic clean-up) that returns, an erase_skins returned.",
  "all loaded documents with plain slot and image names, all such sequences of calls", "all documents and sequences of calls, failures included",
  [ED + "::SpineAnimationEditor.erase_skins", ED + "::SpineAnimationEditor.clean_animation", ED + "::SpineAnimationEditor._clean_images_references"])
p("Documents with sound draw orders",
  "If every draw order of a loaded document names existing slots only and moves each by an int, this stays so after any calls, failed or not. After such calls clean_animation works exactly if the document can be analysed (C126), and otherwise raises and leaves the editor as it was; every image needed by an attachment is a key of images_references.",
  "all loaded documents with sound draw orders whose slot names do not contain '_SLOT' (for the images: plain slot and image names), after any history of calls, successful and failed", "all documents and histories with failures at any point",
  [ED + "::SpineAnimationEditor.clean_animation", ED + "::SpineAnimationEditor.remove_slots", ED + "::SpineAnimationEditor._clean_images_references"])
p("AnimationEraserResult",
  "After any calls of save_node_erased, nodes_erased has exactly the types of the saved nodes as keys and, under each, the set of the ids of the saved nodes of that type; get_attachments() returns the ids of those of type 'ATTACHMENT', and the empty set if there are none.",
  "all sequences of nodes", "all sequences of nodes of any types and ids",
  [ED + "::AnimationEraserResult.save_node_erased", ED + "::AnimationEraserResult.get_attachments"])
p("Nodes as values",
  "Nodes are equal exactly if their ids are, so two nodes of one graph exactly if they are the same node; comparing with an object without id raises AttributeError. hash(node) always raises TypeError. num_parents and num_children are the numbers of edges into and out of the node.",
  "all nodes; all graphs built by any sequence of calls", "all graphs and sequences of calls",
  [SP + "::SpamNode.__eq__", SP + "::SpamNode.__hash__", SP + "::SpamNode.num_parents", SP + "::SpamNode.num_children"])
p("Loading an export builds the graph that erase_skins([]) builds",
  "If the export of an editor can be loaded, the loaded editor has the graph that erase_skins([]) in safe mode builds, and its images_references has exactly the images in use as keys. For documents with sound draw orders and plain names (as in C142) these are among the keys of the editor that was saved.",
  "all loaded documents, after any history of calls, successful and failed; version 3.8 or no draw order with time null", "all documents and histories with failures at any point",
  [ED + "::SpineAnimationEditor.__init__", ED + "::SpineAnimationEditor.erase_skins", ED + "::SpineAnimationEditor.get_images_references"])
p("A clean-up after saving and loading",
  "clean_animation on the editor loaded from an export works exactly if it works after erase_skins([]) in safe mode on the editor that was saved, whatever calls failed before. Both then report the same slots and attachments, and leave the same slots and the same attachments in the skins.",
  "all loaded documents whose slot names do not contain '_SLOT', after any history of calls, successful and failed, whose export can be loaded; version 3.8 or no draw order with time null; all set orders, also different ones", "all documents, histories with failures at any point, and set orders",
  [ED + "::SpineAnimationEditor.clean_animation", ED + "::SpineAnimationEditor.__init__", ED + "::SpineAnimationEditor.erase_skins"])

p("The export of a clean-up after saving and loading",
  "Saving an editor, loading it, cleaning up and exporting gives the same document as erase_skins([]) in safe mode, cleaning up and exporting, if both clean-ups work (they work for the same editors, C146).",
  "all loaded documents whose slot names do not contain '_SLOT', after any history of calls, successful and failed, whose export can be loaded; version 3.8 or no draw order with time null; all set orders, also different ones", "all documents, histories with failures at any point, and set orders",
  [ED + "::SpineAnimationEditor.clean_animation", ED + "::SpineAnimationEditor.__init__", ED + "::SpineAnimationEditor.to_json", ED + "::SpineAnimationEditor.erase_skins"])

p("A second clean-up after saving and loading",
  "If a clean_animation that worked removed only unused slots, then saving the document, loading it and cleaning up again removes nothing and exports the same document, if the document can be analysed; otherwise the second clean-up raises and changes nothing.",
  "all loaded documents with plain slot names and setup attachments (as in C78), after any history of successful calls, whose export can be loaded; version 3.8 or no draw order with time null; all set orders, also different ones", "all documents, histories and set orders",
  [ED + "::SpineAnimationEditor.clean_animation", ED + "::SpineAnimationEditor.__init__", ED + "::SpineAnimationEditor.to_json"])

p("What cannot be saved",
  "set_default_values and to_json raise TypeError if an object that is neither a JSON value, a list, a dictionary nor an element occurs anywhere in the data, at any depth, and work otherwise. clean_unsupported_attributes raises TypeError exactly if such an object occurs outside the attributes it removes (c2, c3 and c4 of the keyframes of bones, ik constraints and slots, for versions that compare less than 3.8.0; for a version with a patch number of 0 or more there are none, C55).",
  "all objects of any shape and depth; all versions", "unbounded nesting of lists, dictionaries and elements",
  [BT + "::SpineData.traverse_spine_data", BT + "::SpineData.to_json", BT + "::SpineData.set_default_values", BT + "::SpineData.clean_unsupported_attributes"])

p("Making elements of any class",
  "A class derived from SpineData (defined by the library or not) can be instantiated exactly if it or a base declares both tables of default values; otherwise NotImplementedError is raised whatever the values. Then values with unknown attributes raise SpineParsingException naming exactly those, otherwise missing required attributes (those of the nearest class that declares REQUIRED) raise one naming exactly those, otherwise the element has exactly the attributes of the class, with the given values and None for the others. All classes of the library declare both tables.",
  "all classes with single inheritance whose __init__ assigns attributes from the values, and all dictionaries", "all classes, including ones that do not exist yet",
  [BT + "::SpineData.__new__", BT + "::SpineData.__init__", BT + "::SpineData.default_values"])
p("An attribute or the default",
  "element.get(name, default) is the attribute of this name if it is not None, and the default if it is None. For a name that is no attribute it is the default if the class has nothing of this name, but not always: on a bone, get('scale') is the method scale.",
  "all classes, elements, names not starting with two underscores (other than the constants of the class) and defaults", "all classes, elements and names",
  [BT + "::SpineData.get"])

p("Scales that cannot be computed",
  "get_slot_custom_scale raises ValueError exactly if the tag in the name of the slot, or of a bone met going up from its bone before 'root', is unreadable. It raises AttributeError exactly if the slot's tag is readable and its bone does not exist, or going up from it leaves the skeleton without meeting 'root' or an unreadable tag. It raises nothing else (it can run forever, C68), and AttributeError for None.",
  "all data and slots", "chains of bones of any length",
  [AD + "::SpineAnimationData.get_slot_custom_scale", AD + "::SpineAnimationData.get_bone_custom_scale_recursive", AD + "::SpineAnimationData.get_bone"])

p("Erasing animations after saving and loading",
  "erase_animations in safe mode commutes with saving and loading: on the editor loaded from an export it has the same outcome (also when it raises for a name that is not found), and leaves the very editor that loading the export after erasing gives; so both export the same document. Not in safe mode, the loaded editor exports the same document as erasing, erase_skins([]) in safe mode and clean_animation on the editor that was saved, if both work.",
  "all loaded documents, after any history of calls, successful and failed, whose export can be loaded; all names, strict or not; for the exports: version 3.8 or no draw order with time null; for the clean-up: slot names without '_SLOT'", "all documents, histories and names",
  [ED + "::SpineAnimationEditor.erase_animations", ED + "::SpineAnimationEditor.__init__", ED + "::SpineAnimationEditor.to_json"])

p("Scaling after saving and loading",
  "scale_animation on the editor loaded from an export has the same outcome and leaves the same exported document as on the editor that was saved, if every scaleX and scaleY of a bone that equals 1 is the float 1.0, or if the factors are floats. Otherwise not always: a scale of 1 (an int) comes back as 1.0, so scaling by a large integer can give another number, or raise OverflowError only after loading.",
  "all loaded documents, after any history of calls, successful and failed, whose export can be loaded; version 3.8 or no draw order with time null; all factors (for float factors: the floats among the scales are binary64)", "all documents, histories and factors",
  [ED + "::SpineAnimationEditor.scale_animation", ED + "::SpineAnimationEditor.__init__", ED + "::SpineAnimationEditor.to_json", BO + "::Bone.scale"])

p("Calls in a row after saving and loading",
  "Any sequence of calls of erase_animations in safe mode and scale_animation, with every exception caught, has the same outcomes and leaves the same exported document on the editor loaded from an export as on the editor that was saved, if every scaleX and scaleY of a bone that equals 1 is the float 1.0 at the time of saving, or if all factors are floats.",
  "all loaded documents, after any history of calls, successful and failed, whose export can be loaded; version 3.8 or no draw order with time null; all sequences of such calls of any length, also failing ones (for float factors: the floats among the scales are binary64)", "all documents, histories and sequences of calls",
  [ED + "::SpineAnimationEditor.scale_animation", ED + "::SpineAnimationEditor.erase_animations", ED + "::SpineAnimationEditor.__init__", ED + "::SpineAnimationEditor.to_json"])

p("Saving and loading a second time",
  "An editor loaded from an export is given back unchanged (data, version, graph and images) by saving and loading once more, and the second file has the same text as the first, also when it is saved under another path.",
  "all loaded documents, after any history of calls, successful and failed, whose export can be loaded; version 3.8 or no draw order with time null; for the files: all file systems, current directories and paths where both calls of to_json work", "all documents, histories, paths and file systems",
  [ED + "::SpineAnimationEditor.to_json", ED + "::SpineAnimationEditor.from_json_file", ED + "::SpineAnimationEditor.__init__"])

with open(os.path.join(os.path.dirname(__file__), "..", "properties.jsonl"), "w") as f:
    for x in P:
        f.write(json.dumps(x) + "\n")
print(len(P))
