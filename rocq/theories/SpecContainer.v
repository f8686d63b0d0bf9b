(** What removing slots and attachments by their names does to the graph of a container. *)
From Verif Require Import PyBase Json Graph SpecGraph SpineGraph SpecSpine.
Open Scope string_scope.

(** The names [l], written with [idf] as the ids of nodes, are different and all nodes. *)
Definition all_there (idf : string -> string) (g : sgraph) (l : list string) : Prop :=
  NoDup l /\ forall s, In s l -> exists n, has_node g (idf s) n.

(** What the caller gets for the node [i] when the nodes [before] were removed first: the
    node as it was, with the edges it still had. *)
Definition taken_out (g : sgraph) (before : list string) (i : string) (n : node ndata) : Prop :=
  (exists n0, has_node g i n0 /\ core n = core n0) /\ n_id n = i /\
  (forall c, In c (n_children n) <-> edge g i c /\ ~ In c before) /\
  (forall p, In p (n_parents n) <-> edge g p i /\ ~ In p before).

(** [f] removes the names one after the other: when all are there it returns their nodes in
    that order; otherwise the first that is missing, or was named before, is refused and the
    ones before it are gone. *)
Definition removes_names (idf : string -> string) (f : list string -> M sgraph (list (node ndata))) : Prop :=
  forall g l, reachable g ->
  (all_there idf g l -> exists g' r, f l g = (g', Ok r) /\ without g g' (fun i => In i (map idf l)) /\ reachable g' /\
     length r = length l /\
     forall l1 s l2, l = (l1 ++ s :: l2)%list -> exists n, nth_error r (length l1) = Some n /\ taken_out g (map idf l1) (idf s) n) /\
  (~ all_there idf g l -> exists l1 s l2 g' w, l = (l1 ++ s :: l2)%list /\ all_there idf g l1 /\
     (In s l1 \/ forall n, ~ has_node g (idf s) n) /\
     f l g = (g', Err (EValue w)) /\ without g g' (fun i => In i (map idf l1)) /\ reachable g').
