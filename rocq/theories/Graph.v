(** Model of /repo/spine_json_lib/graph/: spamnode.py, factories.py, dagraph.py and
    graph_validator.py.

    Simplifications:
    - a node object is identified with its id: the values of [children] and [parents]
      (references to node objects) are modelled by their keys;
    - a factory chooses the type and the forbidden child types of a node (both factories
      of the library do exactly that and ignore [public_id]); a factory that returns
      None is outside the model ([EUnmodelled]);
    - [is] between strings is equality (NodeType names and literals are interned);
    - SpamNode.state (spamnode.py:36) is constant and left out; Python's recursion
      limit is not modelled. *)
From Verif Require Import PyBase.
Open Scope string_scope.

(** A node type is an int or a str; spamnode.py:3 DEFAULT_NODE_TYPE = 0. *)
Inductive ntype := NTInt (z : Z) | NTStr (s : string).
Definition ntype_eqb (a b : ntype) : bool :=
  match a, b with
  | NTInt x, NTInt y => Z.eqb x y
  | NTStr x, NTStr y => String.eqb x y
  | _, _ => false
  end.
Definition DEFAULT_NODE_TYPE : ntype := NTInt 0.

(** What a caller passes as a node id: None, a str, or another object. *)
Inductive idarg := IdNone | IdStr (s : string) | IdOther.

Definition WRONG_NODE_ID_TYPE : exn := EType "Only string type allowed for node_id param".

Section Graph.
  Context {D : Type}.

  (** spamnode.py:21-43 *)
  Record node := mkNode {
    n_id : string;
    n_data : option D;
    n_type : ntype;
    n_public : string;
    n_order : string;
    n_forbidden : list ntype;
    n_children : list string;
    n_parents : list string }.

  (** dagraph.py:49-51 *)
  Record graph := mkGraph {
    g_gen : N;
    g_counter : N;
    g_nodes : dict node }.

  (** dagraph.py:48-51 *)
  Definition new_graph : graph := mkGraph 0 0 [].

  (** The type argument of add_node: None, or a type. *)
  Definition factory := option ntype -> option (ntype * list ntype).

  (** factories.py:53-66 with spamnode.py:32 *)
  Definition default_factory : factory :=
    fun t => Some (match t with None => DEFAULT_NODE_TYPE | Some t => t end, []).

  Definition set_nodes (g : graph) (ns : dict node) : graph := mkGraph (g_gen g) (g_counter g) ns.

  (** dagraph.py:140-146.  [fuel]: the number of nodes is enough, see GraphFacts. *)
  Fixpoint first_free (fuel : nat) (ns : dict node) (n : N) : option N :=
    if dmem (dec n) ns
    then match fuel with
         | O => None
         | S fuel' => first_free fuel' ns (N.succ n)
         end
    else Some n.
  Definition generate_unique_id (g : graph) : graph * res string :=
    match first_free (length (g_nodes g)) (g_nodes g) (N.succ (g_gen g)) with
    | Some n => (mkGraph n (g_counter g) (g_nodes g), Ok (dec n))
    | None => (g, Err EDiverges)
    end.

  (** dagraph.py:64-92 *)
  Definition add_node (fac : factory) (g : graph) (id : idarg) (data : option D)
      (type : option ntype) : graph * res node :=
    let '(g1, r) := generate_unique_id g in
    match r with
    | Err e => (g1, Err e)
    | Ok unique_id =>
        let id' := match id with
                   | IdNone => Ok unique_id
                   | IdOther => Err WRONG_NODE_ID_TYPE
                   | IdStr s => if dmem s (g_nodes g1)
                                then Err (EValue "ids need to be unique")
                                else Ok s
                   end in
        match id' with
        | Err e => (g1, Err e)
        | Ok i =>
            match fac type with
            | None => (g1, Err (EUnmodelled "a factory that returns None"))
            | Some (ty, forb) =>
                let nd := mkNode i data ty i unique_id forb [] [] in
                (mkGraph (g_gen g1) (N.succ (g_counter g1)) (dset i nd (g_nodes g1)), Ok nd)
            end
        end
    end.

  (** dagraph.py:94-103 *)
  Definition get_node (g : graph) (id : idarg) : res (option node) :=
    match id with
    | IdStr s => Ok (dget s (g_nodes g))
    | _ => Err WRONG_NODE_ID_TYPE
    end.

  Definition add_new (x : string) (l : list string) : list string :=
    if smem x l then l else (l ++ [x])%list.
  Definition with_child (n : node) (c : string) : node :=
    mkNode (n_id n) (n_data n) (n_type n) (n_public n) (n_order n) (n_forbidden n)
      (add_new c (n_children n)) (n_parents n).
  Definition with_parent (n : node) (p : string) : node :=
    mkNode (n_id n) (n_data n) (n_type n) (n_public n) (n_order n) (n_forbidden n)
      (n_children n) (add_new p (n_parents n)).
  Definition drop (x : string) (l : list string) : list string :=
    filter (fun y => negb (String.eqb x y)) l.
  Definition without_child (c : string) (n : node) : node :=
    mkNode (n_id n) (n_data n) (n_type n) (n_public n) (n_order n) (n_forbidden n)
      (drop c (n_children n)) (n_parents n).
  Definition without_parent (p : string) (n : node) : node :=
    mkNode (n_id n) (n_data n) (n_type n) (n_public n) (n_order n) (n_forbidden n)
      (n_children n) (drop p (n_parents n)).

  Definition update (id : string) (f : node -> node) (g : graph) : graph :=
    match dget id (g_nodes g) with
    | Some n => set_nodes g (dset id (f n) (g_nodes g))
    | None => g
    end.

  (** spamnode.py:89-107 (_add_child); [is self] is equality of ids. *)
  Definition add_child (n : node) (child : option node) : res node :=
    match child with
    | None => Err (EType "child needs to be a node")
    | Some c =>
        if existsb (ntype_eqb (n_type c)) (n_forbidden n)
        then Err (EType "The type of the child is forbidden for this node")
        else if String.eqb (n_id c) (n_id n)
        then Err (EValue "A node cannot be its own child")
        else Ok (with_child n (n_id c))
    end.

  (** spamnode.py:73-87 (_add_parent) *)
  Definition add_parent (n : node) (parent : option node) : res node :=
    match parent with
    | None => Err (EType "parent needs to be a node")
    | Some p =>
        if String.eqb (n_id p) (n_id n)
        then Err (EValue "A node cannot be its own parent")
        else Ok (with_parent n (n_id p))
    end.

  (** dagraph.py:105-115 *)
  Definition add_edge (g : graph) (parent_id child_id : idarg) : graph * res unit :=
    match get_node g parent_id, get_node g child_id with
    | Err e, _ => (g, Err e)
    | _, Err e => (g, Err e)
    | Ok node1, Ok node2 =>
        let step1 :=
          match node1 with
          | None => (g, Ok tt)
          | Some n1 =>
              match add_child n1 node2 with
              | Err e => (g, Err e)
              | Ok n1' => (set_nodes g (dset (n_id n1) n1' (g_nodes g)), Ok tt)
              end
          end in
        match step1 with
        | (g1, Err e) => (g1, Err e)
        | (g1, Ok _) =>
            match node2 with
            | None => (g1, Err (EAttr "'NoneType' object has no attribute '_add_parent'"))
            | Some n2 =>
                match add_parent n2 node1 with
                | Err e => (g1, Err e)
                | Ok n2' =>
                    (* n1 and n2 are different nodes here: add_child has refused n1 = n2 *)
                    (set_nodes g1 (dset (n_id n2) n2' (g_nodes g1)), Ok tt)
                end
            end
        end
    end.

  (** dagraph.py:117-122 *)
  Definition remove_edge (g : graph) (parent_id child_id : idarg) : graph * res unit :=
    match get_node g parent_id, get_node g child_id, parent_id, child_id with
    | Err e, _, _, _ => (g, Err e)
    | _, Err e, _, _ => (g, Err e)
    | Ok node1, Ok node2, IdStr p, IdStr c =>
        let step1 :=
          match node1 with
          | None => (g, Ok tt)
          | Some n1 =>
              if smem c (n_children n1)
              then (update p (without_child c) g, Ok tt)
              else (g, Err (EKey c))
          end in
        match step1 with
        | (g1, Err e) => (g1, Err e)
        | (g1, Ok _) =>
            match node2 with
            | None => (g1, Err (EAttr "'NoneType' object has no attribute 'parents'"))
            | Some n2 =>
                if smem p (n_parents n2)
                then (update c (without_parent p) g1, Ok tt)
                else (g1, Err (EKey p))
            end
        end
    | _, _, _, _ => (g, Err (EUnmodelled "unreachable: ids are strings here"))
    end.

  (** dagraph.py:124-138.  The two loops delete [node_id] from the parents of every child
      and from the children of every parent (KeyError if it is missing there). *)
  Fixpoint unlink (has : node -> list string) (upd : node -> node) (x : string) (l : list string)
      (g : graph) : graph * res unit :=
    match l with
    | [] => (g, Ok tt)
    | i :: l' =>
        match dget i (g_nodes g) with
        | Some n => if smem x (has n) then unlink has upd x l' (update i upd g)
                    else (g, Err (EKey x))
        | None => (g, Err (EUnmodelled "a related node that is not in the graph"))
        end
    end.
  Definition remove_node_by_id (g : graph) (id : idarg) : graph * res node :=
    match get_node g id, id with
    | Err e, _ => (g, Err e)
    | Ok None, _ => (g, Err (EValue "Node was not found in the graph"))
    | Ok (Some n), IdStr s =>
        match unlink n_parents (without_parent s) s (n_children n) g with
        | (g1, Err e) => (g1, Err e)
        | (g1, Ok _) =>
            match unlink n_children (without_child s) s (n_parents n) g1 with
            | (g2, Err e) => (g2, Err e)
            | (g2, Ok _) => (set_nodes g2 (ddel s (g_nodes g2)), Ok n)
            end
        end
    | _, _ => (g, Err (EUnmodelled "unreachable: the id is a string here"))
    end.

  (** ** Traversals *)
  Definition children_of (g : graph) (id : string) : list string :=
    match dget id (g_nodes g) with Some n => n_children n | None => [] end.
  Definition parents_of (g : graph) (id : string) : list string :=
    match dget id (g_nodes g) with Some n => n_parents n | None => [] end.
  Definition ids (g : graph) : list string := dkeys (g_nodes g).

  (** dagraph.py:245-257: visit.  State: visited, result_nodes. *)
  Fixpoint gn_visit (fuel : nat) (related : string -> list string) (st : list string * list string)
      (id : string) : res (list string * list string) :=
    match fuel with
    | O => Err EDiverges
    | S fuel' =>
        let '(visited, result) := st in
        if smem id visited then Ok st
        else match related id with
             | [] => Ok (id :: visited, (result ++ [id])%list)
             | l => foldM (gn_visit fuel' related) (id :: visited, result) l
             end
    end.
  (** dagraph.py:241-262 (__get_nodes) *)
  Definition get_nodes (g : graph) (related : string -> list string) : res (list string) :=
    let! st := foldM (gn_visit (S (length (g_nodes g))) related) ([], []) (ids g) in
    Ok (snd st).
  (** dagraph.py:233-235 *)
  Definition get_heads_id (g : graph) : res (list string) := get_nodes g (parents_of g).
  (** dagraph.py:237-239 *)
  Definition get_tails_id (g : graph) : res (list string) := get_nodes g (children_of g).

  (** dagraph.py:216-226: visit.  State: visited, result_nodes. *)
  Fixpoint seq_visit (fuel : nat) (g : graph) (st : list string * list string) (id : string)
      : res (list string * list string) :=
    match fuel with
    | O => Err EDiverges
    | S fuel' =>
        match dget id (g_nodes g) with
        | None => Err (EAttr "'NoneType' object has no attribute 'id'")
        | Some n =>
            let visit_new st i := if smem i (fst st) then Ok st else seq_visit fuel' g st i in
            let! st1 := foldM visit_new (id :: fst st, snd st) (n_parents n) in
            foldM visit_new (fst st1, (snd st1 ++ [id])%list) (n_children n)
        end
    end.
  (** dagraph.py:207-231 *)
  Definition sequential_order_of_execution (g : graph) : res (list string) :=
    let! heads := get_heads_id g in
    let! st := foldM (seq_visit (S (S (length (g_nodes g)))) g) ([], []) heads in
    Ok (snd st).

  (** graph_validator.py:91-104: visit.  State: visited_nodes, path (last element first). *)
  Fixpoint cyc_visit (fuel : nat) (g : graph) (st : list string * list string) (id : string)
      : res ((list string * list string) * list string) :=
    match fuel with
    | O => Err EDiverges
    | S fuel' =>
        let '(visited, path) := st in
        if smem id visited then Ok (st, [])
        else
          (fix loop (st : list string * list string) (l : list string)
             : res ((list string * list string) * list string) :=
             match l with
             | [] => Ok ((fst st, tl (snd st)), [])              (* path.pop() *)
             | c :: l' =>
                 let! (st', p) := cyc_visit fuel' g st c in
                 if (smem c (snd st') || negb (Nat.eqb (length p) 0))%bool
                 then Ok (st', (p ++ [c])%list)
                 else loop st' l'
             end) (id :: visited, id :: path) (children_of g id)
    end.
  (** graph_validator.py:83-110 *)
  Definition get_circular_dependencies (g : graph) : res (list string) :=
    let! r := foldM (fun acc id =>
                       let! (st', p) := cyc_visit (S (length (g_nodes g))) g (fst acc) id in
                       Ok (st', (snd acc ++ p)%list))
                (([], []), []) (ids g) in
    Ok (rev (snd r)).

  (** graph_validator.py:68-80; the name of UCNodeType.INPUT_ROOT_NODE_TYPE *)
  Definition INPUT_ROOT : ntype := NTStr "INPUT_ROOT_NODE_TYPE".
  Definition get_unconnected_nodes (g : graph) : res (list string) :=
    let! heads := get_heads_id g in
    Ok (filter (fun h => match dget h (g_nodes g) with
                         | Some n => negb (ntype_eqb (n_type n) INPUT_ROOT)
                         | None => true
                         end) heads).

  (** graph_validator.py:23-25,41 and 53-65: the list of errors *)
  Inductive graph_error := CIRCULAR_REFS (l : list string) | UNCONNECTED_NODES (l : list string).
  Definition validate (g : graph) : res (list graph_error) :=
    let! cyc := get_circular_dependencies g in
    let! unc := get_unconnected_nodes g in
    Ok ((match cyc with [] => [] | _ => [CIRCULAR_REFS cyc] end) ++
        (match unc with [] => [] | _ => [UNCONNECTED_NODES unc] end))%list.

  (** [path.remove(x)]: the first occurrence *)
  Fixpoint remove_first (x : string) (l : list string) : list string :=
    match l with
    | [] => []
    | y :: l' => if String.eqb x y then l' else y :: remove_first x l'
    end.

  (** dagraph.py:180-200 (_look_for_paths).  State: paths, visited, path. *)
  Record pst := mkPst { p_paths : list (list string); p_visited : list string; p_path : list string }.
  Fixpoint look_for_paths (fuel : nat) (g : graph) (maximum_depth : Z) (end_ : string) (depth : Z)
      (st : pst) (start : string) : res pst :=
    match fuel with
    | O => Err EDiverges
    | S fuel' =>
        if Z.gtb depth maximum_depth then Ok st
        else if String.eqb start end_
        then Ok (mkPst (p_paths st ++ [p_path st ++ [start]])%list (p_visited st) (p_path st))
        else
          match dget start (g_nodes g) with
          | None => Err (EKey start)
          | Some n =>
              let st1 := mkPst (p_paths st) (start :: p_visited st) (p_path st ++ [start])%list in
              let! st2 := foldM (fun s c => if smem c (p_visited s) then Ok s
                                            else look_for_paths fuel' g maximum_depth end_ (depth + 1) s c)
                            st1 (n_children n) in
              Ok (mkPst (p_paths st2) (drop start (p_visited st2)) (remove_first start (p_path st2)))
          end
    end.
  (** dagraph.py:148-205 *)
  Definition get_all_paths (g : graph) (node_start node_end : string) (maximum_depth : Z)
      : res (list (list string)) :=
    let! errors := validate g in
    match errors with
    | _ :: _ => Err (EValue "The current graph is invalid")
    | [] =>
        if negb (dmem node_start (g_nodes g)) then Err (EValue "Could not find the node")
        else if negb (dmem node_end (g_nodes g)) then Err (EValue "Could not find the node")
        else let! st := look_for_paths (S (length (g_nodes g))) g maximum_depth node_end 1
                          (mkPst [] [] []) node_start in
             Ok (p_paths st)
    end.

  (** ** Histories of public mutating calls *)
  Inductive gop :=
  | OpAddNode (id : idarg) (data : option D) (type : option ntype)
  | OpAddEdge (parent child : idarg)
  | OpRemoveEdge (parent child : idarg)
  | OpRemoveNode (id : idarg)
  | OpGenerateId.

  Inductive gout := OutNode (n : node) | OutId (s : string) | OutUnit.

  Definition out_of {A} (f : A -> gout) (x : graph * res A) : graph * res gout :=
    (fst x, match snd x with Ok a => Ok (f a) | Err e => Err e end).

  Definition step (fac : factory) (g : graph) (op : gop) : graph * res gout :=
    match op with
    | OpAddNode i d t => out_of OutNode (add_node fac g i d t)
    | OpAddEdge p c => out_of (fun _ => OutUnit) (add_edge g p c)
    | OpRemoveEdge p c => out_of (fun _ => OutUnit) (remove_edge g p c)
    | OpRemoveNode i => out_of OutNode (remove_node_by_id g i)
    | OpGenerateId => out_of OutId (generate_unique_id g)
    end.

  (** The graph after any sequence of calls, failing or not. *)
  Definition run (fac : factory) (g : graph) (ops : list gop) : graph :=
    fold_left (fun g op => fst (step fac g op)) ops g.
End Graph.
Arguments node : clear implicits.
Arguments graph : clear implicits.
Arguments gop : clear implicits.
Arguments gout : clear implicits.
