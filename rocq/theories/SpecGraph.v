(** Specification notions for graphs, in terms of what get_node shows of a graph and of
    the calls made and their results. *)
From Coq Require Import Relation_Operators.
From Verif Require Import PyBase Graph.
Open Scope string_scope.

Section Spec.
  Context {D : Type}.
  Implicit Types (g : graph D) (n : node D).

  (** The node shown by get_node. *)
  Definition has_node g (i : string) n : Prop := get_node g (IdStr i) = Ok (Some n).
  Definition no_node g (i : string) : Prop := get_node g (IdStr i) = Ok None.

  (** p lists c as child; c lists p as parent. *)
  Definition edge g (p c : string) : Prop := exists n, has_node g p n /\ In c (n_children n).
  Definition edge_up g (p c : string) : Prop := exists n, has_node g c n /\ In p (n_parents n).

  (** A node without its edges. *)
  Definition core n := (n_id n, n_data n, n_type n, n_public n, n_order n, n_forbidden n).

  (** p may have a child of the type of c. *)
  Definition allows p c := existsb (ntype_eqb (n_type (D := D) c)) (n_forbidden (D := D) p) = false.

  (** The calls of a history with their results. *)
  Fixpoint trace (fac : factory) g (ops : list (gop D)) : list (gop D * res (gout D)) :=
    match ops with
    | [] => []
    | op :: ops' => let '(g', r) := step fac g op in (op, r) :: trace fac g' ops'
    end.

  (** The node of the last successful add_node with id i, unless removed since. *)
  Definition seen (i : string) (last : option (node D)) (e : gop D * res (gout D)) : option (node D) :=
    match e with
    | (OpAddNode _ _ _, Ok (OutNode n)) => if String.eqb (n_id n) i then Some n else last
    | (OpRemoveNode (IdStr j), Ok _) => if String.eqb j i then None else last
    | _ => last
    end.
  Definition last_added (tr : list (gop D * res (gout D))) (i : string) : option (node D) :=
    fold_left (seen i) tr None.

  (** The ids the graph made up: results of generate_unique_id, and ids of nodes added
      without an id. *)
  Definition issued1 (e : gop D * res (gout D)) : list string :=
    match e with
    | (OpGenerateId, Ok (OutId s)) => [s]
    | (OpAddNode IdNone _ _, Ok (OutNode n)) => [n_id n]
    | _ => []
    end.
  Definition issued (tr : list (gop D * res (gout D))) : list string := flat_map issued1 tr.

  (** Directed paths and cycles. *)
  Fixpoint chain g (l : list string) : Prop :=
    match l with
    | x :: (y :: _) as l' => edge g x y /\ chain g l'
    | _ => True
    end.
  Definition path g (s e : string) (l : list string) : Prop :=
    (exists n, has_node g s n) /\ hd_error l = Some s /\ last l s = e /\ chain g l.
  Definition cycle g (l : list string) : Prop :=
    exists x l', l = x :: l' /\ chain g (l ++ [x])%list.
  Definition acyclic g : Prop := forall l, ~ cycle g l.

  (** Nodes without parents, without children; connected by edges in any direction;
      leading to a cycle. *)
  Definition head g (h : string) : Prop := exists n, has_node g h n /\ n_parents n = [].
  Definition tail g (t : string) : Prop := exists n, has_node g t n /\ n_children n = [].
  Definition connected g : string -> string -> Prop := clos_refl_sym_trans string (edge g).
  Definition leads_to_cycle g (x : string) : Prop :=
    exists l y, cycle g l /\ In y l /\ (x = y \/ clos_trans string (edge g) x y).

  (** What validate() accepts: no cycle, and no head but those of the input-root type. *)
  Definition bad_head g h := exists n, has_node g h n /\ n_parents n = [] /\ n_type n <> NTStr "INPUT_ROOT_NODE_TYPE".
  Definition valid g := acyclic g /\ forall h, ~ bad_head g h.

  (** What get_node returns for a string. *)
  Definition shown g (i : string) : option (node D) :=
    match get_node g (IdStr i) with Ok o => o | Err _ => None end.

  (** A graph after some history of calls. *)
  Definition reachable g : Prop := exists fac ops, g = run fac new_graph ops.

  (** A topological order of all the nodes. *)
  Definition topological g (l : list string) : Prop :=
    NoDup l /\ (forall i, In i l <-> exists n, has_node g i n) /\
    (forall a b x y, l = (a ++ x :: b)%list -> In y (x :: b) -> ~ edge g y x).
End Spec.
