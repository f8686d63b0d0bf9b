(** The unit tests of /repo, run on the model: spine_json_lib/test/test_utils.py,
    graph/test/test_graph.py and the tests of test/test_spine_animation_editor.py with small
    files.  The tests with large files are run by tools/validate/run.sh on the extracted model. *)
From Verif Require Import PyBase PyNum Json Version Tags Classes Graph SpineGraph DrawOrder AnimData Editor EditorRun ConformData.
From Coq Require Import SpecFloat.
Open Scope string_scope.

(** ** test/test_utils.py *)
Definition half : float64 := S754_finite false 4503599627370496 (-53).
(** lines 7-20 *)
Example test_get_tag_from_name_ok :
  map get_tags_from_name
    ["master[scale : 0.5]"; "master[ scale:0.5 ]"; "master[ scale : 0.5 ]"; "master[scale:0.5"; "masterscale:0.5]"; "master[scale0.5]"] =
  [Ok [("scale", half)]; Ok [("scale", half)]; Ok [("scale", half)]; Ok []; Ok []; Ok []].
Proof. vm_compute. reflexivity. Qed.
(** lines 23-38 *)
Example test_unsupported_tag : get_tags_from_name "bone1[unsupported : empty]" = Err (EValue "unsupported TAG").
Proof. vm_compute. reflexivity. Qed.
Example test_wrong_type_tag_value :
  get_tags_from_name "bone_layer[ scale:invalid_str ]" = Err (EValue "could not convert string to float").
Proof. vm_compute. reflexivity. Qed.

(** ** graph/test/test_graph.py *)
Definition ok {A B} (x : A * res B) : bool := match snd x with Ok _ => true | Err _ => false end.
Definition is_value {A B} (x : A * res B) : bool := match snd x with Err (EValue _) => true | _ => false end.
Definition is_type {A B} (x : A * res B) : bool := match snd x with Err (EType _) => true | _ => false end.
(** The fixture test_graph, lines 34-47 *)
Definition test_graph (nodes : list string) (types : dict string) (edges : list (string * string)) : graph unit :=
  Graph.run default_factory new_graph
    (map (fun i => OpAddNode (IdStr i) None (option_map NTStr (dget i types))) nodes ++
     map (fun e => OpAddEdge (IdStr (fst e)) (IdStr (snd e))) edges).
(** NodeFactoryTest, lines 50-88 *)
Definition factory_test : factory := fun t =>
  match t with
  | Some (NTStr "BLOND") => Some (NTStr "BLOND", [NTStr "BLACK"])
  | Some (NTStr "BLACK") => Some (NTStr "BLACK", [NTStr "BLOND"])
  | Some t => Some (t, [])
  | None => Some (DEFAULT_NODE_TYPE, [])
  end.

(** lines 92-122: the loop adds a node with a generated id, then adds it again *)
Definition creation_step (s : graph unit * bool) (_ : nat) : graph unit * bool :=
  let '(g, good) := s in
  match generate_unique_id g with
  | (g1, Ok i) =>
      let r1 := add_node factory_test g1 (IdStr i) None None in
      let r2 := add_node factory_test (fst r1) (IdStr i) None None in
      let r3 := add_node factory_test (fst r2) IdOther None None in
      (fst r3,
       good && negb (String.eqb i "UNIQUE_ID") && ok r1 && is_value r2 && is_type r3
       && match get_node (fst r1) (IdStr i) with Ok (Some n) => String.eqb (n_id n) i | _ => false end
       && match get_node (fst r3) IdOther with Err (EType _) => true | _ => false end)
  | (g1, Err _) => (g1, false)
  end.
Example test_graph_nodes_creation :
  let r1 := add_node factory_test new_graph (IdStr "UNIQUE_ID") None None in
  let r2 := add_node factory_test (fst r1) (IdStr "UNIQUE_ID") None None in
  let r3 := add_node factory_test (fst r2) (IdStr "1") None None in
  ok r1 = true /\ is_value r2 = true /\ ok r3 = true /\
  snd (fold_left creation_step (seq 0 100) (fst r3, true)) = true.
Proof. vm_compute. repeat split. Qed.

(** lines 124-136 *)
Example test_graph_edges :
  let g := test_graph ["0"; "1"] [] [("0", "1")] in
  is_type (add_edge g (IdStr "0") (IdStr "wrong_id")) = true /\ is_type (add_edge g (IdStr "wrong_id") (IdStr "1")) = true.
Proof. vm_compute. repeat split. Qed.

(** lines 138-152 *)
Example test_graph_forbidden_child_types :
  let t s := OpAddNode (D := unit) (IdStr s) None (Some (NTStr s)) in
  let g := Graph.run factory_test new_graph [t "BLOND"; t "BROWN"; t "BLACK"] in
  let r1 := add_edge g (IdStr "BLOND") (IdStr "BROWN") in
  let r2 := add_edge (fst r1) (IdStr "BLACK") (IdStr "BROWN") in
  ok r1 = true /\ ok r2 = true /\
  is_type (add_edge (fst r2) (IdStr "BLACK") (IdStr "BLOND")) = true /\
  is_type (add_edge (fst r2) (IdStr "BLOND") (IdStr "BLACK")) = true.
Proof. vm_compute. repeat split. Qed.

(** lines 154-162 *)
Example test_graph_remove_node :
  let r := remove_node_by_id (test_graph ["UNIQUE_ID"] [] []) (IdStr "UNIQUE_ID") in
  ok r = true /\ is_value (remove_node_by_id (fst r) (IdStr "UNIQUE_ID")) = true.
Proof. vm_compute. repeat split. Qed.

(** lines 164-182 *)
Example test_graph_multi_graphs :
  let '(g1, i) := generate_unique_id (D := unit) new_graph in
  match i with
  | Ok i =>
      let r1 := add_node factory_test g1 (IdStr i) None None in
      ok r1 = true /\ get_node (D := unit) new_graph (IdStr i) = Ok None /\
      ok (add_node (D := unit) factory_test new_graph (IdStr i) None None) = true /\
      is_value (add_edge (fst r1) (IdStr i) (IdStr i)) = true
  | Err _ => False
  end.
Proof. vm_compute. repeat split. Qed.

(** lines 184-210 *)
Definition circular (g : graph unit) : option nat :=
  match validate g with Ok [CIRCULAR_REFS l] => Some (length l) | _ => None end.
Example test_graph_circular_references :
  circular (test_graph ["0"; "1"; "2"] [] [("0", "1"); ("1", "2"); ("2", "0")]) = Some 3%nat /\
  circular (test_graph ["0"; "1"; "2"] [] [("0", "1"); ("1", "2"); ("1", "0")]) = Some 2%nat.
Proof. vm_compute. repeat split. Qed.

(** lines 212-244 *)
Example test_graph_heads_tails :
  let g := test_graph ["1"; "2"; "3"; "4"] [] [("1", "2"); ("2", "3"); ("3", "4")] in
  get_heads_id g = Ok ["1"] /\ get_tails_id g = Ok ["4"].
Proof. vm_compute. repeat split. Qed.

(** lines 246-291 *)
Example test_graph_all_paths :
  let root := [("1", "INPUT_ROOT_NODE_TYPE")] in
  let paths edges := get_all_paths (test_graph ["1"; "2"; "3"; "4"] root edges) "1" "4" 20 in
  paths [("1", "2"); ("2", "3"); ("3", "4")] = Ok [["1"; "2"; "3"; "4"]] /\
  paths [("1", "2"); ("2", "3"); ("2", "4"); ("3", "4")] = Ok [["1"; "2"; "3"; "4"]; ["1"; "2"; "4"]] /\
  paths [("1", "2"); ("2", "3"); ("2", "4"); ("3", "4"); ("1", "4")] =
    Ok [["1"; "2"; "3"; "4"]; ["1"; "2"; "4"]; ["1"; "4"]].
Proof. vm_compute. repeat split. Qed.

(** lines 293-340 *)
Example test_graph_sequential_order_execution :
  sequential_order_of_execution (test_graph ["1"; "2"; "3"; "4"] [] [("1", "2"); ("1", "3"); ("2", "3"); ("3", "4")]) =
    Ok ["1"; "2"; "3"; "4"] /\
  sequential_order_of_execution (test_graph ["1"; "2"; "3"; "4"; "5"; "6"; "7"] []
    [("1", "3"); ("3", "4"); ("4", "5"); ("1", "2"); ("2", "5"); ("5", "7"); ("3", "6"); ("5", "6"); ("6", "7")]) =
    Ok ["1"; "3"; "4"; "2"; "5"; "6"; "7"].
Proof. vm_compute. repeat split. Qed.

(** ** test/test_spine_animation_editor.py *)
Definition images_val (e : editor) : val :=
  VDict (map (fun kv => (fst kv,
    VDict (("path", VStr (im_path (snd kv))) ::
           match im_scale (snd kv) with Some f => [("scale", VFloat f)] | None => [] end))) (e_images e)).
(** lines 61-72: loading and exporting gives an equal document *)
Example test_load_new_version :
  match mk_editor original_json with Ok e => py_eq (editor_json e) original_json | Err _ => false end = true.
Proof. vm_compute. reflexivity. Qed.
(** lines 102-114 *)
Example test_images_refs :
  match mk_editor original_json with Ok e => py_eq (images_val e) image_paths_json | Err _ => false end = true.
Proof. vm_compute. reflexivity. Qed.
