(** Model of /repo/spine_json_lib/deserializer/spine_nodes.py and
    /repo/spine_json_lib/spine_graph_container.py: the dependency graph of a Spine
    document. *)
From Verif Require Import PyBase Json Graph.
Open Scope string_scope.

(** spine_nodes.py:16-28: names of the NodeType members the code uses. *)
Definition T_BONE : string := "BONE".
Definition T_SLOT : string := "SLOT".
Definition T_PATH : string := "PATH".
Definition T_IK : string := "IK".
Definition T_ATTACHMENT : string := "ATTACHMENT".
Definition T_IMAGE : string := "IMAGE".
Definition T_DEFAULT : string := "DEFAULT".

(** spine_nodes.py:34-99 (SpineNodeFactory.create_node) *)
Definition spine_factory : factory :=
  fun t =>
    match t with
    | Some (NTStr "BONE") => Some (NTStr T_BONE, [NTStr T_ATTACHMENT])
    | Some (NTStr "SLOT") => Some (NTStr T_SLOT, map NTStr [T_BONE; T_PATH; T_IK])
    | Some (NTStr "IK") => Some (NTStr T_IK, map NTStr [T_PATH; T_IK; T_ATTACHMENT; T_IMAGE])
    | Some (NTStr "ATTACHMENT") =>
        Some (NTStr T_ATTACHMENT, map NTStr [T_PATH; T_IK; T_ATTACHMENT; T_BONE])
    | Some (NTStr "IMAGE") =>
        Some (NTStr T_IMAGE, map NTStr [T_DEFAULT; T_BONE; T_SLOT; T_PATH; T_IK; T_ATTACHMENT; T_IMAGE])
    | _ => None
    end.

(** spine_nodes.py:115: the data of a node, {"idx": .., "data": ..} *)
Record ndata := mkNData { nd_idx : Z; nd_data : val }.
Definition sgraph := graph ndata.

(** spine_nodes.py:322-329 *)
Definition graph_id (type base : string) : string := base ++ "_" ++ type.
Definition to_graph_id (type : string) (base : val) : res string :=
  Ok (graph_id type (py_str base)).
(** spine_nodes.py:331-334 *)
Definition to_base_id (type id : string) : string := str_remove_all ("_" ++ type) id.

Definition lift_g {A} (f : sgraph -> sgraph * res A) : M sgraph A := f.
Definition g_add (type : string) (id : string) (data : ndata) : M sgraph unit :=
  do! _ := (fun g => add_node spine_factory g (IdStr id) (Some data) (Some (NTStr type))) in
  mret tt.
Definition g_edge (p c : string) : M sgraph unit :=
  fun g => add_edge g (IdStr p) (IdStr c).
Definition g_has (id : string) : M sgraph bool :=
  fun g => (g, Ok (dmem id (g_nodes g))).

Definition get_item (k : string) (d : dict val) : val :=
  match dget k d with Some v => v | None => VNone end.

(** [if parent: graph.add_edge(parent.id, id)] for the node [parent] found by [get_node] *)
Definition edge_if_present (p c : string) (which : string) : M sgraph unit :=
  do! b := g_has which in if b then g_edge p c else mret tt.

(** spine_nodes.py:175-195 *)
Definition add_bone_to_graph (bone_data : val) (idx : Z) : M sgraph unit :=
  do! name := mlift (py_item bone_data "name") in
  do! id := mlift (to_graph_id T_BONE name) in
  do! _ := g_add T_BONE id (mkNData idx bone_data) in
  do! d := mlift (as_dict bone_data) in
  do! parent_id := mlift (to_graph_id T_BONE (get_item "parent" d)) in
  edge_if_present parent_id id parent_id.

(** spine_nodes.py:197-220 *)
Definition add_slot_to_graph (slot_data : val) (idx : Z) : M sgraph string :=
  do! name := mlift (py_item slot_data "name") in
  do! id := mlift (to_graph_id T_SLOT name) in
  do! _ := g_add T_SLOT id (mkNData idx slot_data) in
  do! d := mlift (as_dict slot_data) in
  do! parent_id := mlift (to_graph_id T_BONE (get_item "bone" d)) in
  do! _ := edge_if_present parent_id id parent_id in
  mret id.

(** [a or b] *)
Definition val_or (a b : val) : val := if truthy a then a else b.

(** spine_nodes.py:239: the image of an attachment *)
Definition image_of (d : dict val) (key : string) : val :=
  val_or (get_item "path" d) (val_or (get_item "name" d) (VStr key)).

Definition add_if_absent (type id : string) (data : ndata) : M sgraph unit :=
  do! b := g_has id in if b then mret tt else g_add type id data.

(** spine_nodes.py:224-254: the loop body *)
Definition add_attachment_to_slot (slot_id : string) (kv : string * val) : M sgraph unit :=
  let '(key, data) := kv in
  let att_id := graph_id T_ATTACHMENT key in
  do! _ := add_if_absent T_ATTACHMENT att_id (mkNData (-1) data) in
  do! d := mlift (as_dict data) in
  do! image_id := mlift (to_graph_id T_IMAGE (image_of d key)) in
  do! _ := add_if_absent T_IMAGE image_id (mkNData (-1) (VDict [])) in
  do! _ := g_edge att_id image_id in
  g_edge slot_id att_id.

(** The same where [skin_attachment] is the list [l]: [_id] is an element *)
Definition add_listed_attachment (slot_id : string) (l : list val) (x : val) : M sgraph unit :=
  do! data := mlift (py_nth l x) in
  add_attachment_to_slot slot_id (py_str x, data).

(** spine_nodes.py:222-254 *)
Definition add_skin_attachments_to_slot (slot_id : string) (skin_attachment : val) : M sgraph unit :=
  match skin_attachment with
  | VDict d => do! _ := mforeach (add_attachment_to_slot slot_id) d in mret tt
  | VList l => do! _ := mforeach (add_listed_attachment slot_id l) l in mret tt
  | VStr EmptyString => mret tt
  | VStr _ => mraise (EType "string indices must be integers")
  | _ => mraise (EType "object is not iterable")
  end.

(** spine_nodes.py:305-314: one skin, for the slot named [slot_name] *)
Definition add_skin_to_slot (slot_id : string) (slot_name : val) (data : val) : M sgraph unit :=
  do! d := mlift (as_dict data) in
  let skin_data := get_item "attachments" d in
  if truthy skin_data then
    do! sd := mlift (as_dict skin_data) in
    do! slot_skinned := mlift (match slot_name with
                               | VStr n => Ok (match dget n sd with Some v => v | None => VList [] end)
                               | VList _ | VDict _ => Err (EType "unhashable type")
                               | _ => Ok (VList [])
                               end) in
    add_skin_attachments_to_slot slot_id slot_skinned
  else mret tt.

(** spine_nodes.py:256-288 *)
Definition add_ik_to_graph (ik_data : val) (idx : Z) : M sgraph unit :=
  do! name := mlift (py_item ik_data "name") in
  do! id := mlift (to_graph_id T_IK name) in
  do! _ := g_add T_IK id (mkNData idx ik_data) in
  do! bones := mlift (py_item ik_data "bones") in
  do! bs := mlift (py_iter bones) in
  do! _ := mforeach (fun b => do! child_id := mlift (to_graph_id T_BONE b) in
                              edge_if_present id child_id child_id) bs in
  do! d := mlift (as_dict ik_data) in
  let target_bone := get_item "target" d in
  if truthy target_bone then
    do! parent_bone_id := mlift (to_graph_id T_BONE target_bone) in
    edge_if_present parent_bone_id id parent_bone_id
  else mret tt.

(** [enumerate(l)] *)
Fixpoint enumerate_from {A} (i : Z) (l : list A) : list (Z * A) :=
  match l with [] => [] | x :: l' => (i, x) :: enumerate_from (i + 1) l' end.
Definition enumerate {A} (l : list A) : list (Z * A) := enumerate_from 0 l.

(** spine_nodes.py:301-314: one slot with its attachments in every skin *)
Definition add_slot_and_attachments (json_data : dict val) (x : Z * val) : M sgraph unit :=
  let '(idx, slot_data) := x in
  do! slot_id := add_slot_to_graph slot_data idx in
  do! skins := mlift (dget_err "skins" json_data) in
  do! skins' := mlift (py_iter skins) in
  do! slot_name := mlift (py_item slot_data "name") in
  do! _ := mforeach (add_skin_to_slot slot_id slot_name) skins' in
  mret tt.

(** spine_nodes.py:290-320 *)
Definition build_graph_m (json_data : dict val) : M sgraph unit :=
  do! bones := mlift (let! b := dget_err "bones" json_data in py_iter b) in
  do! _ := mforeach (fun x => add_bone_to_graph (snd x) (fst x)) (enumerate bones) in
  do! slots := mlift (match dget "slots" json_data with Some v => py_iter v | None => Ok [] end) in
  do! _ := mforeach (add_slot_and_attachments json_data) (enumerate slots) in
  do! iks := mlift (match dget "ik" json_data with Some v => py_iter v | None => Ok [] end) in
  do! _ := mforeach (fun x => add_ik_to_graph (snd x) (fst x)) (enumerate iks) in
  mret tt.
Definition create_from_json_data (json_data : val) : res sgraph :=
  match json_data with
  | VDict d => match build_graph_m d new_graph with
               | (g, Ok _) => Ok g
               | (_, Err e) => Err e
               end
  | _ => Err (EType "indices must be integers")
  end.

(** [sorted(l, key=...)] (stable) *)
Fixpoint insert_by {A} (key : A -> Z) (x : A) (l : list A) : list A :=
  match l with
  | [] => [x]
  | y :: l' => if Z.leb (key x) (key y) then x :: l else y :: insert_by key x l'
  end.
Fixpoint sort_by {A} (key : A -> Z) (l : list A) : list A :=
  match l with [] => [] | x :: l' => insert_by key x (sort_by key l') end.

(** spine_nodes.py:139-173 (to_json_data).  The test of line 151 compares the type name with
    the enum member SLOT and is always false, so lines 150-159 never act.  A node without
    data cannot occur in a graph built by the library. *)
Record graph_json := mkGraphJson { gj_slots : list val; gj_bones : list val; gj_ik : list val }.
Definition nodes_of_type (t : string) (g : sgraph) : list ndata :=
  flat_map (fun n => if ntype_eqb (n_type n) (NTStr t)
                     then match n_data n with Some d => [d] | None => [] end
                     else []) (dvals (g_nodes g)).
Definition known_type (t : ntype) : bool :=
  existsb (ntype_eqb t) (map NTStr [T_BONE; T_SLOT; T_IK; T_ATTACHMENT; T_IMAGE]).
Definition sorted_data (l : list ndata) : list val := map nd_data (sort_by nd_idx l).
Definition graph_to_json (g : sgraph) : res graph_json :=
  if forallb (fun n => known_type (n_type n)) (dvals (g_nodes g))
  then Ok (mkGraphJson (sorted_data (nodes_of_type T_SLOT g)) (sorted_data (nodes_of_type T_BONE g))
             (sorted_data (nodes_of_type T_IK g)))
  else Err (EKey "type").

(** ** spine_graph_container.py *)

(** spine_graph_container.py:18-26 and 47-57: nodes of a type among the given ids *)
Definition of_type (type_name : string) (g : sgraph) (l : list string) : list string :=
  filter (fun i => match dget i (g_nodes g) with
                   | Some n => ntype_eqb (n_type n) (NTStr type_name)
                   | None => false
                   end) l.
Definition get_heads_with_type (type_name : string) : M sgraph (list string) :=
  fun g => (g, let! l := get_heads_id g in Ok (of_type type_name g l)).
Definition get_leafs_of_type (type_name : string) : M sgraph (list string) :=
  fun g => (g, let! l := get_tails_id g in Ok (of_type type_name g l)).

Definition g_remove (id : string) : M sgraph (node ndata) :=
  fun g => remove_node_by_id g (IdStr id).

(** spine_graph_container.py:28-45 and 59-76: remove what [select] finds until it finds
    nothing.  [fuel] bounds the number of rounds (at most one per node). *)
Fixpoint remove_rounds (fuel : nat) (select : M sgraph (list string)) (type_name : string)
    : M sgraph (list string) :=
  do! l := select in
  match l with
  | [] => mret []
  | _ =>
      match fuel with
      | O => mraise EDiverges
      | S fuel' =>
          do! removed := mforeach (fun i => do! n := g_remove i in
                                            mret (to_base_id type_name (n_id n))) l in
          do! more := remove_rounds fuel' select type_name in
          mret (removed ++ more)%list
      end
  end.
Definition remove_heads_of_type (type_name : string) : M sgraph (list string) :=
  fun g => remove_rounds (length (g_nodes g)) (get_heads_with_type type_name) type_name g.
Definition remove_leafs_of_type (type_name : string) : M sgraph (list string) :=
  fun g => remove_rounds (length (g_nodes g)) (get_leafs_of_type type_name) type_name g.

(** spine_graph_container.py:78-92.  The node that get_node finds (line 79) is the one that
    remove_node_by_id returns. *)
Definition remove_attachments (l : list string) : M sgraph (list (node ndata)) :=
  mforeach (fun a => g_remove (graph_id T_ATTACHMENT a)) l.
(** spine_graph_container.py:94-102 *)
Definition remove_slots (l : list string) : M sgraph (list (node ndata)) :=
  mforeach (fun s => g_remove (graph_id T_SLOT s)) l.
