(** Specification notions for C106 and C107: the numbers a graph counts with, and which kinds
    of a Spine graph may be connected. *)
From Verif Require Import PyBase Graph SpecGraph.
Open Scope string_scope.

Section Numbers.
  Context {D : Type}.
  Implicit Types (g : graph D).

  (** [m] is the least number above [last] whose decimal is not the id of a node. *)
  Definition next_number g (last m : N) : Prop :=
    (last < m)%N /\ no_node g (dec m) /\ forall k, (last < k < m)%N -> exists n, has_node g (dec k) n.

  (** The calls that draw a number: generate_unique_id, and every add_node, also when the
      caller gives the id, and also when it raises. *)
  Definition draws (op : gop D) : bool :=
    match op with OpGenerateId | OpAddNode _ _ _ => true | _ => false end.

  (** The nodes that were added. *)
  Definition added1 (e : gop D * res (gout D)) : bool :=
    match e with (OpAddNode _ _ _, Ok _) => true | _ => false end.
  Definition added (tr : list (gop D * res (gout D))) : nat := length (filter added1 tr).

  (** No caller chooses an id. *)
  Definition no_own_ids (ops : list (gop D)) : Prop :=
    forall i d t, In (OpAddNode i d t) ops -> i = IdNone.
End Numbers.

(** The kinds a node of a Spine graph may have as children (spine_nodes.py:34-99). *)
Definition kind_children (kind : string) : list string :=
  if String.eqb kind "BONE" then ["BONE"; "SLOT"; "IK"; "IMAGE"]
  else if String.eqb kind "SLOT" then ["SLOT"; "ATTACHMENT"; "IMAGE"]
  else if String.eqb kind "IK" then ["BONE"; "SLOT"]
  else if String.eqb kind "ATTACHMENT" then ["SLOT"; "IMAGE"]
  else [].
Definition five_kinds : list string := ["BONE"; "SLOT"; "IK"; "ATTACHMENT"; "IMAGE"].
