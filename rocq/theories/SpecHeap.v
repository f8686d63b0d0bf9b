(** Specification: parties (callers, editors, the classes with their constants) that share a
    heap, what each of them can reach, and what they may do. *)
From Verif Require Import PyBase PyNum Json Heap.
Open Scope string_scope.

Inductive reaches (h : heap) : hval -> nat -> Prop :=
| reach_here : forall a, reaches h (HRef a) a
| reach_item : forall a c k v b, hget h a = Some c -> In (k, v) (c_items c) -> reaches h v b -> reaches h (HRef a) b.

(** The JSON value of an object without instances and cycles *)
Inductive denotes (h : heap) : hval -> val -> Prop :=
| denotes_none : denotes h HNone VNone
| denotes_bool : forall b, denotes h (HBool b) (VBool b)
| denotes_int : forall z, denotes h (HInt z) (VInt z)
| denotes_float : forall f, denotes h (HFloat f) (VFloat f)
| denotes_str : forall s, denotes h (HStr s) (VStr s)
| denotes_list : forall a items l, hget h a = Some (mkCell KList items) -> denotes_items h items l ->
    denotes h (HRef a) (VList (map snd l))
| denotes_dict : forall a items l, hget h a = Some (mkCell KDict items) -> denotes_items h items l ->
    denotes h (HRef a) (VDict l)
with denotes_items (h : heap) : list (string * hval) -> list (string * val) -> Prop :=
| denotes_nil : denotes_items h [] []
| denotes_cons : forall k v l t ts, denotes h v t -> denotes_items h l ts -> denotes_items h ((k, v) :: l) ((k, t) :: ts).

(** Each party has variables. *)
Record world := mkWorld { w_heap : heap; w_vars : nat -> list hval }.
Definition gains (w : world) (h : heap) (p : nat) (l : list hval) : world :=
  mkWorld h (fun q => if Nat.eqb q p then (l ++ w_vars w q)%list else w_vars w q).
Definition holds (w : world) (p a : nat) : Prop := exists v, In v (w_vars w p) /\ reaches (w_heap w) v a.
(** No dangling references *)
Definition points_into (n : nat) (v : hval) : Prop := match v with HRef a => a < n | _ => True end.
Definition sound_heap (h : heap) : Prop := forall a c k v, hget h a = Some c -> In (k, v) (c_items c) -> points_into (length h) v.
Definition sound (w : world) : Prop :=
  sound_heap (w_heap w) /\ forall p v, In v (w_vars w p) -> points_into (length (w_heap w)) v.
(** No two parties can reach the same object. *)
Definition separate (w : world) : Prop := forall p q a, holds w p a -> holds w q a -> p = q.

(** What party [p] can store: constants, and what its variables hold *)
Definition available (w : world) (p : nat) (v : hval) : Prop := match v with HRef _ => In v (w_vars w p) | _ => True end.
(** Moves: a party creates an object, looks into one, changes one, or gets a copy, a loaded
    document or an export from what another party (or itself) holds.  The label is the party
    that changes an object. *)
Inductive move (w : world) : option nat -> world -> Prop :=
| move_new : forall p k items, (forall x v, In (x, v) items -> available w p v) ->
    move w None (gains w (w_heap w ++ [mkCell k items])%list p [HRef (length (w_heap w))])
| move_read : forall p a c k v, In (HRef a) (w_vars w p) -> hget (w_heap w) a = Some c -> In (k, v) (c_items c) ->
    move w None (gains w (w_heap w) p [v])
| move_write : forall p a c k items, In (HRef a) (w_vars w p) -> hget (w_heap w) a = Some c ->
    (forall x v, In (x, v) items -> In (x, v) (c_items c) \/ available w p v) ->
    move w (Some p) (gains w (hset (w_heap w) a (mkCell k items)) p [])
| move_copy : forall p q v h' v', In v (w_vars w p) -> deepcopy (w_heap w) v = Some (h', v') -> move w None (gains w h' q [v'])
| move_load : forall p q v h' r, In v (w_vars w p) -> load (w_heap w) v = (h', r) ->
    move w None (gains w h' q (match r with Ok l => l | Err _ => [] end))
| move_export : forall p q keep fuel v h' v', In v (w_vars w p) -> export keep fuel (w_heap w) v = Some (h', v') -> move w None (gains w h' q [v'])
| move_json : forall p q keep fuel sk v h' v', In sk (w_vars w p) -> In v (w_vars w p) ->
    to_json_data keep fuel (w_heap w) sk v = Some (h', v') -> move w None (gains w h' q [v']).
(** A run, with the labels of its moves *)
Inductive moves : world -> list (option nat) -> world -> Prop :=
| moves_none : forall w, moves w [] w
| moves_more : forall w o w1 l w2, move w o w1 -> moves w1 l w2 -> moves w (o :: l) w2.

(** What export makes of an object: instances become dictionaries of the attributes that [keep]
    selects. *)
Inductive exported (keep : heap -> nat -> string * hval -> bool) (h : heap) : hval -> val -> Prop :=
| exported_none : exported keep h HNone VNone
| exported_bool : forall b, exported keep h (HBool b) (VBool b)
| exported_int : forall z, exported keep h (HInt z) (VInt z)
| exported_float : forall f, exported keep h (HFloat f) (VFloat f)
| exported_str : forall s, exported keep h (HStr s) (VStr s)
| exported_list : forall a items l, hget h a = Some (mkCell KList items) -> exported_items keep h items l ->
    exported keep h (HRef a) (VList (map snd l))
| exported_dict : forall a items l, hget h a = Some (mkCell KDict items) -> exported_items keep h items l ->
    exported keep h (HRef a) (VDict l)
| exported_instance : forall a c items l, hget h a = Some (mkCell (KObj c) items) ->
    exported_items keep h (filter (keep h a) items) l -> exported keep h (HRef a) (VDict l)
with exported_items (keep : heap -> nat -> string * hval -> bool) (h : heap) : list (string * hval) -> list (string * val) -> Prop :=
| exported_nil : exported_items keep h [] []
| exported_cons : forall k v l t ts, exported keep h v t -> exported_items keep h l ts ->
    exported_items keep h ((k, v) :: l) ((k, t) :: ts).
(** The selection looks at existing objects only. *)
Definition looks_back (keep : heap -> nat -> string * hval -> bool) : Prop :=
  forall h h' a i, length h <= length h' -> (forall b, b < length h -> hget h' b = hget h b) -> a < length h -> keep h' a i = keep h a i.
