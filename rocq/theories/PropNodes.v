(** Properties C143 and C144 (AnimationEraserResult, and nodes as values). *)
From Verif Require Import PyBase Graph SpecGraph SpineGraph Nodes NodeFacts.
Open Scope string_scope.

(** ** C143: AnimationEraserResult *)
Theorem C143_erased : forall D (nodes : list (node D)) t, let r := fold_left save_node_erased nodes new_erased in
  (erased_get t r = None <-> forall n, In n nodes -> n_type n <> t) /\
  forall l, erased_get t r = Some l -> NoDup l /\ forall i, In i l <-> exists n, In n nodes /\ n_type n = t /\ n_id n = i.
Proof.
  intros D nodes t r. destruct (saved_get nodes t) as (H1 & H2 & H3). split; [exact H1 | ].
  intros l E. change (erased_get t (saved nodes) = Some l) in E. rewrite E in H2, H3. auto.
Qed.
Print Assumptions C143_erased.
Theorem C143_attachments : forall D (nodes : list (node D)), let l := get_attachments (fold_left save_node_erased nodes new_erased) in
  NoDup l /\ forall i, In i l <-> exists n, In n nodes /\ n_type n = NTStr "ATTACHMENT" /\ n_id n = i.
Proof. intros D nodes. exact (proj2 (saved_get nodes (NTStr "ATTACHMENT"))). Qed.
Print Assumptions C143_attachments.
Definition n143 (i : string) (t : ntype) : node unit := mkNode i None t i "1" [] [] [].
Example C143_ex : let r := fold_left save_node_erased [n143 "a" (NTStr "ATTACHMENT"); n143 "s" (NTStr "SLOT"); n143 "b" (NTStr "ATTACHMENT"); n143 "a" (NTStr "ATTACHMENT"); n143 "a" (NTInt 0)] new_erased in
  r = [(NTStr "ATTACHMENT", ["a"; "b"]); (NTStr "SLOT", ["s"]); (NTInt 0, ["a"])] /\ get_attachments r = ["a"; "b"].
Proof. split; reflexivity. Qed.

(** ** C144: nodes as values *)
Theorem C144_equal : forall D (n m : node D), (node_eq n (Some m) = Ok true <-> n_id n = n_id m) /\ (node_eq n (Some m) = Ok false <-> n_id n <> n_id m) /\
  exists x, node_eq n None = Err (EAttr x).
Proof.
  intros D n m. cbn [node_eq]. destruct (String.eqb_spec (n_id n) (n_id m)) as [E | E]; (split; [split; intros; congruence | split; [split; intros; congruence | eauto]]).
Qed.
Print Assumptions C144_equal.
Theorem C144_graph : forall D (g : graph D) i j n m, reachable g -> has_node g i n -> has_node g j m ->
  (node_eq n (Some m) = Ok true <-> i = j) /\ (node_eq n (Some m) = Ok false <-> i <> j).
Proof. exact @nodes_equal. Qed.
Print Assumptions C144_graph.
Theorem C144_hash : forall D (n : node D), exists x, node_hash n = Err (EType x).
Proof. intros D n. eexists. reflexivity. Qed.
Print Assumptions C144_hash.
Theorem C144_degrees : forall D (g : graph D) i n, reachable g -> has_node g i n ->
  exists ps cs, NoDup ps /\ NoDup cs /\ (forall p, In p ps <-> edge g p i) /\ (forall c, In c cs <-> edge g i c) /\
    num_parents n = length ps /\ num_children n = length cs.
Proof. exact @degrees. Qed.
Print Assumptions C144_degrees.
(** An edge added twice counts once; the edge of a removed node is gone. *)
Example C144_ex : let g : graph unit := run default_factory new_graph [OpAddNode (IdStr "a") None None; OpAddNode (IdStr "b") None None; OpAddNode (IdStr "c") None None;
    OpAddEdge (IdStr "a") (IdStr "b"); OpAddEdge (IdStr "a") (IdStr "b"); OpAddEdge (IdStr "c") (IdStr "b"); OpAddEdge (IdStr "a") (IdStr "c"); OpRemoveNode (IdStr "c")] in
  exists a b, has_node g "a" a /\ has_node g "b" b /\ num_children a = 1 /\ num_parents b = 1 /\ num_parents a = 0 /\ node_eq a (Some b) = Ok false /\ node_eq a (Some a) = Ok true.
Proof. eexists _, _. split; [vm_compute; reflexivity | ]. split; [vm_compute; reflexivity | ]. repeat split. Qed.
