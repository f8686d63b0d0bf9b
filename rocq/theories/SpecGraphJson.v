(** What [to_json_data] makes of a graph: the data of the nodes of a kind, sorted by their index. *)
From Verif Require Import PyBase Json Graph SpecGraph SpineGraph.
From Coq Require Import Sorted Permutation.
Open Scope string_scope.

(** The nodes of a graph, in their order *)
Definition nodes_are (g : sgraph) (ns : list (node ndata)) : Prop := Forall2 (has_node g) (dkeys (g_nodes g)) ns.
(** The data of the nodes of kind [t] *)
Inductive picked (t : string) : list (node ndata) -> list ndata -> Prop :=
| pk_nil : picked t [] []
| pk_take : forall n d ns l, n_type n = NTStr t -> n_data n = Some d -> picked t ns l -> picked t (n :: ns) (d :: l)
| pk_skip : forall n ns l, n_type n <> NTStr t -> picked t ns l -> picked t (n :: ns) l.
(** In order of the indices; those with the same index stay in their order. *)
Definition put_in_order (l l' : list ndata) : Prop :=
  Permutation l l' /\ StronglySorted (fun a b => (nd_idx a <= nd_idx b)%Z) l' /\
  forall k, filter (fun d => Z.eqb (nd_idx d) k) l' = filter (fun d => Z.eqb (nd_idx d) k) l.
Definition written_for (t : string) (ns : list (node ndata)) (r : list val) : Prop :=
  exists l l', picked t ns l /\ put_in_order l l' /\ r = map nd_data l'.
Definition kinds : list string := ["BONE"; "SLOT"; "IK"; "ATTACHMENT"; "IMAGE"].
