(** Property C125: what [to_json_data] gives for any graph. *)
From Verif Require Import PyBase Json Graph SpecGraph SpineGraph GraphApi SpecGraphJson GraphJsonFacts.
From Coq Require Import Sorted Permutation.
Open Scope string_scope.

(** ** C125 *)
Theorem C125_exact : forall (g : sgraph) ns o, reachable g -> nodes_are g ns -> (forall n, In n ns -> n_data n <> None) ->
  (graph_to_json g = Ok o <-> (forall n, In n ns -> exists t, In t kinds /\ n_type n = NTStr t) /\
     written_for "SLOT" ns (gj_slots o) /\ written_for "BONE" ns (gj_bones o) /\ written_for "IK" ns (gj_ik o)).
Proof. intros g ns o R. exact (any_graph_json g ns o (proj1 (reachable_wf g R))). Qed.
Print Assumptions C125_exact.
Theorem C125_other_kind : forall (g : sgraph) i n, reachable g -> has_node g i n -> (forall t, In t kinds -> n_type n <> NTStr t) ->
  exists w, graph_to_json g = Err (EKey w).
Proof. intros g i n R. exact (other_kind g i n (proj1 (reachable_wf g R))). Qed.
Print Assumptions C125_other_kind.
(** There is exactly one way to put data in order. *)
Theorem C125_one_order : forall l, exists l', put_in_order l l' /\ forall l'', put_in_order l l'' -> l'' = l'.
Proof. intros l. exists (sort_by nd_idx l). split; [apply sort_in_order | intros l'' H; exact (order_one l l'' _ H (sort_in_order l))]. Qed.
Print Assumptions C125_one_order.

(** Two bones share the index 1 and stay in their order, the third comes first. *)
Definition some_nodes : list (gop ndata) :=
  [OpAddNode (IdStr "b_BONE") (Some (mkNData 1 (VStr "b"))) (Some (NTStr "BONE")); OpAddNode (IdStr "s_SLOT") (Some (mkNData 0 (VStr "s"))) (Some (NTStr "SLOT"));
   OpAddNode (IdStr "c_BONE") (Some (mkNData 1 (VStr "c"))) (Some (NTStr "BONE")); OpAddNode (IdStr "a_BONE") (Some (mkNData 0 (VStr "a"))) (Some (NTStr "BONE"));
   OpAddNode (IdStr "i_IMAGE") (Some (mkNData 0 (VStr "i"))) (Some (NTStr "IMAGE"))].
Example C125_example :
  graph_to_json (run spine_factory new_graph some_nodes) = Ok (mkGraphJson [VStr "s"] [VStr "a"; VStr "b"; VStr "c"] []) /\
  graph_to_json (run default_factory new_graph some_nodes) = Ok (mkGraphJson [VStr "s"] [VStr "a"; VStr "b"; VStr "c"] []) /\
  graph_to_json (run default_factory new_graph (some_nodes ++ [OpAddNode (IdStr "p_PATH") (Some (mkNData 0 (VStr "p"))) (Some (NTStr "PATH"))])%list) = Err (EKey "type") /\
  reachable (run spine_factory new_graph some_nodes).
Proof. repeat split; try (vm_compute; reflexivity). exists spine_factory, some_nodes. reflexivity. Qed.
