(** Properties C106 to C108. *)
From Verif Require Import PyBase Json Classes Graph SpineGraph DrawOrder SpecGraph SpecNumbers SpecDraw SpecOffsets NumberFacts OffsetFacts PropGraph PropDraw.
Open Scope string_scope.
Open Scope list_scope.

(** ** C106 *)
(** nodes_id_generator of a graph is the last number it has drawn, 0 at first. *)
Theorem C106_start : forall D, g_gen (@new_graph D) = 0%N /\ g_counter (@new_graph D) = 0%N /\ forall i, no_node (@new_graph D) i.
Proof. intros D. split; [reflexivity | split; [reflexivity | intros i; reflexivity]]. Qed.
Print Assumptions C106_start.

Theorem C106_drawn : forall D fac (g : graph D) op, draws op = true ->
  exists m, next_number g (g_gen g) m /\ g_gen (fst (step fac g op)) = m /\
    forall s, In s (issued1 (op, snd (step fac g op))) -> s = dec m.
Proof. exact @draws_next. Qed.
Print Assumptions C106_drawn.

Theorem C106_undrawn : forall D fac (g : graph D) op, draws op = false ->
  g_gen (fst (step fac g op)) = g_gen g /\ g_counter (fst (step fac g op)) = g_counter g.
Proof. exact @undrawn. Qed.
Print Assumptions C106_undrawn.

(** The order of a new node is the number drawn, its id as well unless the caller gives it. *)
Theorem C106_node : forall D fac (g : graph D) id data ty n, snd (add_node fac g id data ty) = Ok n ->
  snd (generate_unique_id g) = Ok (n_order n) /\ (id = IdNone -> n_id n = n_order n) /\ (forall s, id = IdStr s -> n_id n = s).
Proof. intros D fac g id data ty. exact (proj2 (add_gen fac g id data ty)). Qed.
Print Assumptions C106_node.

(** nodes_counter counts the nodes ever added. *)
Theorem C106_counter : forall D fac (ops : list (gop D)),
  g_counter (run fac new_graph ops) = N.of_nat (added (trace fac new_graph ops)).
Proof. exact @history_counter. Qed.
Print Assumptions C106_counter.

(** When no caller chooses an id, the ids are 1, 2, 3, … *)
Theorem C106_in_order : forall D fac (ops : list (gop D)), (forall t, fac t <> None) -> no_own_ids ops ->
  issued (trace fac new_graph ops) = map (fun k => dec (N.of_nat k)) (seq 1 (length (filter draws ops))).
Proof. exact @new_numbered. Qed.
Print Assumptions C106_in_order.

Example C106_example : let ops := [OpAddNode IdNone None None; OpGenerateId; OpAddNode IdNone None None; OpRemoveNode (IdStr "1");
    OpAddEdge (IdStr "3") (IdStr "3"); OpAddNode IdNone None None] in
  no_own_ids ops /\ issued (trace default_factory (@new_graph unit) ops) = ["1"; "2"; "3"; "4"] /\
  added (trace default_factory (@new_graph unit) ops) = 3.
Proof. split; [ | split; vm_compute; reflexivity]. intros i d t H. cbn in H. intuition congruence. Qed.
(** Also a call that raises draws a number. *)
Example C106_failing : let ops := [add "2"; add "2"; OpAddNode IdOther None None; OpGenerateId; OpAddNode IdNone None None] in
  issued (trace default_factory (@new_graph unit) ops) = ["5"; "6"] /\
  added (trace default_factory (@new_graph unit) ops) = 2.
Proof. split; vm_compute; reflexivity. Qed.

(** ** C107 *)
Theorem C107_kinds : forall D (ops : list (gop D)) i n,
  has_node (run spine_factory new_graph ops) i n -> exists k, In k five_kinds /\ n_type n = NTStr k.
Proof. exact @spine_kind. Qed.
Print Assumptions C107_kinds.

Theorem C107_connect : forall D (ops : list (gop D)) p c np nc kp kc, let g := run spine_factory new_graph ops in
  has_node g p np -> has_node g c nc -> n_type np = NTStr kp -> n_type nc = NTStr kc ->
  ((exists g', add_edge g (IdStr p) (IdStr c) = (g', Ok tt)) <-> p <> c /\ In kc (kind_children kp)).
Proof. exact @spine_connect. Qed.
Print Assumptions C107_connect.

Theorem C107_edges : forall D (ops : list (gop D)) p c, let g := run spine_factory new_graph ops in edge g p c ->
  exists np nc kp kc, has_node g p np /\ has_node g c nc /\ n_type np = NTStr kp /\ n_type nc = NTStr kc /\ In kc (kind_children kp).
Proof. exact @spine_edges. Qed.
Print Assumptions C107_edges.

(** All pairs of kinds. *)
Example C107_example : let kind k := OpAddNode (D := unit) (IdStr k) None (Some (NTStr k)) in
  let two k := OpAddNode (D := unit) (IdStr (k ++ "2")%string) None (Some (NTStr k)) in
  let g := run spine_factory new_graph (map kind five_kinds ++ map two five_kinds) in
  map (fun p => filter (fun c => match snd (add_edge g (IdStr p) (IdStr (c ++ "2")%string)) with Ok _ => true | Err _ => false end) five_kinds)
    five_kinds =
  [["BONE"; "SLOT"; "IK"; "IMAGE"]; ["SLOT"; "ATTACHMENT"; "IMAGE"]; ["BONE"; "SLOT"]; ["SLOT"; "IMAGE"]; []].
Proof. vm_compute. reflexivity. Qed.

(** ** C108 *)
Theorem C108_order : forall names ms, NoDup names ->
  exists l, drawn names ms l /\ Permutation l names /\ forall l', drawn names ms l' -> l' = l.
Proof.
  intros names ms N. destruct (drawn_exists names ms N) as [l H]. exists l. split; [exact H | ]. split.
  - exact (drawn_perm names ms l N H).
  - intros l' H'. exact (drawn_unique names ms l' l N H' H).
Qed.
Print Assumptions C108_order.

(** Rewriting a keyframe, whatever the integers in it. *)
Theorem C108_exact : forall removed names d d' ms, NoDup names -> moves_of (do_offsets d) ms ->
  remove_offsets_with_ids removed names d = (d', Ok tt) ->
  exists l, drawn names ms l /\ do_time d' = do_time d /\ exists ms', moves_of (do_offsets d') ms' /\
    sublist (map fst ms') (first_listed (map fst ms)) /\
    forall s z, In (s, z) ms' <-> In s (map fst ms) /\ ~ In s removed /\ z <> 0%Z /\
      exists i j, nth_error (survivors removed names) i = Some s /\ nth_error (survivors removed l) j = Some s /\
        z = (Z.of_nat j - Z.of_nat i)%Z.
Proof. exact remove_offsets_any. Qed.
Print Assumptions C108_exact.

(** For valid moves the order is that of the Spine runtime. *)
Theorem C108_valid : forall names ms l, NoDup names -> valid_moves names ms -> (drawn names ms l <-> draw_order_of names ms l).
Proof. exact drawn_valid. Qed.
Print Assumptions C108_valid.

(** One place down from the first place: before the last of the others.  The last offset
    listed for a slot counts. *)
Example C108_example : exists d', remove_offsets_with_ids ["r"] ["a"; "b"; "r"; "c"] (key [off "a" 3; off "r" 0; off "a" (-1)]) = (d', Ok tt) /\
  do_offsets d' = [off "a" 1].
Proof. eexists. split; vm_compute; reflexivity. Qed.
Example C108_far : exists d', remove_offsets_with_ids ["z"] ["a"; "b"; "c"; "d"] (key [off "d" 5; off "c" (-9); off "a" (-1)]) = (d', Ok tt) /\
  do_offsets d' = [off "c" (-2); off "a" 1].
Proof. eexists. split; vm_compute; reflexivity. Qed.
