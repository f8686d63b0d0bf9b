(** Model of what a node shows besides its fields (/repo/spine_json_lib/graph/spamnode.py:45-67)
    and of AnimationEraserResult (/repo/spine_json_lib/spine_animation_editor.py:22-33). *)
From Verif Require Import PyBase Json Graph SpineGraph.
Open Scope string_scope.

Section Nodes.
  Context {D : Type}.

  (** spamnode.py:45-47.  [other]: another node, or an object without attribute id. *)
  Definition node_eq (n : node D) (other : option (node D)) : res bool :=
    match other with
    | Some m => Ok (String.eqb (n_id n) (n_id m))
    | None => Err (EAttr "id")
    end.
  (** spamnode.py:49-51: __hash__ returns the id. *)
  Definition node_dunder_hash (n : node D) : val := VStr (n_id n).
  (** Python's hash() of an object with a method __hash__: an int of 64 bits is kept, a larger one is reduced
      (modulo 2^61 - 1, sign kept), -1 becomes -2, and anything else is a TypeError. *)
  Definition hash_int (z : Z) : Z :=
    let h := if (Z.leb (- 2 ^ 63) z && Z.ltb z (2 ^ 63))%bool then z else Z.rem z (2 ^ 61 - 1) in
    if Z.eqb h (-1) then (-2)%Z else h.
  Definition py_hash (v : val) : res Z :=
    match v with
    | VInt z => Ok (hash_int z)
    | VBool b => Ok (if b then 1 else 0)%Z
    | _ => Err (EType "__hash__ method should return an integer")
    end.
  Definition node_hash (n : node D) : res Z := py_hash (node_dunder_hash n).
  (** spamnode.py:61-67 *)
  Definition num_parents (n : node D) : nat := length (n_parents n).
  Definition num_children (n : node D) : nat := length (n_children n).

  (** spine_animation_editor.py:22-24: nodes_erased, a dict from node types to frozensets of ids *)
  Definition erased := list (ntype * list string).
  Definition new_erased : erased := [].
  (** nodes_erased.get(t) *)
  Fixpoint erased_get (t : ntype) (r : erased) : option (list string) :=
    match r with
    | [] => None
    | (t', l) :: r' => if ntype_eqb t t' then Some l else erased_get t r'
    end.
  (** nodes_erased[t] = l *)
  Fixpoint erased_set (t : ntype) (l : list string) (r : erased) : erased :=
    match r with
    | [] => [(t, l)]
    | (t', l') :: r' => if ntype_eqb t t' then (t', l) :: r' else (t', l') :: erased_set t l r'
    end.
  (** spine_animation_editor.py:26-30 *)
  Definition save_node_erased (r : erased) (n : node D) : erased :=
    let r1 := match erased_get (n_type n) r with Some _ => r | None => erased_set (n_type n) [] r end in
    erased_set (n_type n) (add_new (n_id n) (match erased_get (n_type n) r1 with Some l => l | None => [] end)) r1.
  (** spine_animation_editor.py:32-33 *)
  Definition get_attachments (r : erased) : list string :=
    match erased_get (NTStr T_ATTACHMENT) r with Some l => l | None => [] end.
End Nodes.
