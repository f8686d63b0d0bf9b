(** Properties C12 to C22 (the graph class). *)
From Coq Require Import Relation_Operators.
From Verif Require Import PyBase Graph SpecGraph GraphHist GraphApi.
Open Scope string_scope.
Open Scope list_scope.

(** Graphs for the examples: nodes "0", "1", … with edges. *)
Definition add (i : string) : gop unit := OpAddNode (IdStr i) None None.
Definition root (i : string) : gop unit := OpAddNode (IdStr i) None (Some (NTStr "INPUT_ROOT_NODE_TYPE")).
Definition link (p c : string) : gop unit := OpAddEdge (IdStr p) (IdStr c).
Definition built (ops : list (gop unit)) : graph unit := run default_factory new_graph ops.
Lemma built_reachable : forall ops, reachable (built ops).
Proof. intros ops. exists default_factory, ops. reflexivity. Qed.
(** 0 -> 1 -> 3, 0 -> 2 -> 3, 3 -> 4 *)
Definition diamond := [root "0"; add "1"; add "2"; add "3"; add "4"; link "0" "1"; link "0" "2"; link "1" "3"; link "2" "3"; link "3" "4"].
(** x -> 0 -> 1 -> 2 -> 1 *)
Definition loop := [root "x"; add "0"; add "1"; add "2"; link "x" "0"; link "0" "1"; link "1" "2"; link "2" "1"].
(** 0 -> 1 -> 2, 0 -> 3, and 4 -> 5 *)
Definition forest := [root "0"; add "1"; add "2"; add "3"; root "4"; add "5"; link "0" "1"; link "1" "2"; link "0" "3"; link "4" "5"].
(** H -> X, P -> X, P -> C, X -> C *)
Definition two_heads := [root "H"; root "P"; add "X"; add "C"; link "H" "X"; link "P" "X"; link "P" "C"; link "X" "C"].

(** ** C12 *)
Theorem C12_generated_is_fresh : forall D (g : graph D), exists s g',
  generate_unique_id g = (g', Ok s) /\ no_node g s /\ g_nodes g' = g_nodes g.
Proof. exact @generate_fresh. Qed.
Print Assumptions C12_generated_is_fresh.

Theorem C12_never_repeats : forall D fac (g : graph D) (ops : list (gop D)), NoDup (issued (trace fac g ops)).
Proof. exact @issued_NoDup. Qed.
Print Assumptions C12_never_repeats.

Example C12_example : issued (trace default_factory (@new_graph unit)
  [OpGenerateId; OpAddNode IdNone None None; add "4"; OpRemoveNode (IdStr "2"); OpGenerateId; OpAddNode IdNone None None]) =
  ["1"; "2"; "5"; "6"].
Proof. vm_compute. reflexivity. Qed.

(** ** C13 *)
Theorem C13_lookup : forall D fac (ops : list (gop D)) i,
  option_map core (shown (run fac new_graph ops) i) = option_map core (last_added (trace fac new_graph ops) i).
Proof. exact @history_lookup. Qed.
Print Assumptions C13_lookup.

Theorem C13_add_in_use : forall D fac (g : graph D) i n d t, has_node g i n ->
  exists g' m, add_node fac g (IdStr i) d t = (g', Err (EValue m)) /\ g_nodes g' = g_nodes g.
Proof. exact @add_in_use. Qed.
Print Assumptions C13_add_in_use.

Theorem C13_add_fresh : forall D fac (g : graph D) i d t ty forb, no_node g i -> fac t = Some (ty, forb) ->
  exists g' n, add_node fac g (IdStr i) d t = (g', Ok n) /\ has_node g' i n /\
    n_id n = i /\ n_data n = d /\ n_type n = ty /\ n_forbidden n = forb /\ n_children n = [] /\ n_parents n = [] /\
    (forall j, j <> i -> get_node g' (IdStr j) = get_node g (IdStr j)).
Proof. exact @add_fresh. Qed.
Print Assumptions C13_add_fresh.

Theorem C13_add_non_string : forall D fac (g : graph D) d t,
  exists g', add_node fac g IdOther d t = (g', Err WRONG_NODE_ID_TYPE) /\ g_nodes g' = g_nodes g.
Proof. exact @add_other. Qed.
Print Assumptions C13_add_non_string.

Theorem C13_non_string : forall D (g : graph D) i, (forall s, i <> IdStr s) ->
  get_node g i = Err WRONG_NODE_ID_TYPE /\ remove_node_by_id g i = (g, Err WRONG_NODE_ID_TYPE).
Proof. intros D g [ | s | ] H; try (exfalso; eapply H; reflexivity); split; reflexivity. Qed.
Print Assumptions C13_non_string.

Theorem C13_remove_absent : forall D (g : graph D) i, no_node g i ->
  exists m, remove_node_by_id g (IdStr i) = (g, Err (EValue m)).
Proof. exact @remove_absent. Qed.
Print Assumptions C13_remove_absent.

Example C13_example :
  let ops := [OpAddNode (IdStr "a") (Some 1) None; OpAddNode (IdStr "a") (Some 2) None; OpAddNode (IdStr "b") (Some 3) None;
              OpRemoveNode (IdStr "a"); OpAddNode (IdStr "a") (Some 4) None; OpRemoveNode (IdStr "b")] in
  let g := run default_factory new_graph ops in
  (exists n, has_node g "a" n /\ n_data n = Some 4) /\ no_node g "b".
Proof. vm_compute. split; [eexists; split; reflexivity | reflexivity]. Qed.

(** ** C14 *)
Theorem C14_edges : forall D (g : graph D), reachable g ->
  (forall p c, edge g p c <-> edge_up g p c) /\
  (forall p c, edge g p c -> exists np nc, has_node g p np /\ has_node g c nc /\ allows np nc) /\
  (forall i, ~ edge g i i) /\
  (forall i n, has_node g i n -> n_id n = i /\ NoDup (n_children n) /\ NoDup (n_parents n)).
Proof. exact @edges_ok. Qed.
Print Assumptions C14_edges.

(** A history with failing calls: a self edge, a forbidden type, an absent node, the same
    edge twice. *)
Definition picky : factory := fun t => match t with
  | None => Some (DEFAULT_NODE_TYPE, [NTStr "leaf"]) | Some t => Some (t, []) end.
Definition failing : list (gop unit) := [add "a"; add "b"; OpAddNode (IdStr "l") None (Some (NTStr "leaf")); link "a" "a";
  link "a" "l"; link "a" "z"; link "a" "b"; link "a" "b"; link "l" "a"].
Example C14_example : map (fun e => match snd e with Ok _ => true | Err _ => false end) (trace picky new_graph failing) =
    [true; true; true; false; false; false; true; true; true] /\
  map (fun e => n_children (snd e)) (g_nodes (run picky new_graph failing)) = [["b"]; []; ["a"]].
Proof. vm_compute. split; reflexivity. Qed.

(** ** C15 *)
Theorem C15_add_edge_when : forall D (g : graph D) p c, reachable g ->
  (exists g', add_edge g (IdStr p) (IdStr c) = (g', Ok tt)) <->
  exists np nc, has_node g p np /\ has_node g c nc /\ p <> c /\ allows np nc.
Proof. exact @add_edge_iff. Qed.
Print Assumptions C15_add_edge_when.

Theorem C15_add_edge_effect : forall D (g : graph D) p c g', reachable g ->
  add_edge g (IdStr p) (IdStr c) = (g', Ok tt) ->
  (forall a b, edge g' a b <-> edge g a b \/ (a = p /\ b = c)) /\
  (forall i, option_map core (shown g' i) = option_map core (shown g i)) /\ ids g' = ids g.
Proof. exact @add_edge_effect. Qed.
Print Assumptions C15_add_edge_effect.

Theorem C15_add_edge_fails : forall D (g : graph D) p c g' e, reachable g -> add_edge g p c = (g', Err e) -> g' = g.
Proof. exact @add_edge_fail. Qed.
Print Assumptions C15_add_edge_fails.

Theorem C15_remove_edge_when : forall D (g : graph D) p c, reachable g ->
  (exists g', remove_edge g (IdStr p) (IdStr c) = (g', Ok tt)) <-> edge g p c.
Proof. exact @remove_edge_iff. Qed.
Print Assumptions C15_remove_edge_when.

Theorem C15_remove_edge_effect : forall D (g : graph D) p c g', reachable g ->
  remove_edge g (IdStr p) (IdStr c) = (g', Ok tt) ->
  (forall a b, edge g' a b <-> edge g a b /\ ~ (a = p /\ b = c)) /\
  (forall i, option_map core (shown g' i) = option_map core (shown g i)) /\ ids g' = ids g.
Proof. exact @remove_edge_effect. Qed.
Print Assumptions C15_remove_edge_effect.

Theorem C15_remove_edge_fails : forall D (g : graph D) p c g' e, reachable g -> remove_edge g p c = (g', Err e) -> g' = g.
Proof. exact @remove_edge_fail. Qed.
Print Assumptions C15_remove_edge_fails.

Example C15_example : exists g1 g2, add_edge (built diamond) (IdStr "0") (IdStr "4") = (g1, Ok tt) /\
  remove_edge g1 (IdStr "3") (IdStr "4") = (g2, Ok tt) /\ edge g2 "0" "4" /\ ~ edge g2 "3" "4".
Proof.
  do 2 eexists. split; [vm_compute; reflexivity | ]. split; [vm_compute; reflexivity | ]. split.
  - eexists. split; [vm_compute; reflexivity | vm_compute; tauto].
  - intros (n & H & Hc). vm_compute in H. injection H as <-. destruct Hc.
Qed.

(** ** C16 *)
Theorem C16_remove_when : forall D (g : graph D) i, reachable g ->
  (exists g' n, remove_node_by_id g (IdStr i) = (g', Ok n)) <-> exists n, has_node g i n.
Proof. exact @remove_node_iff. Qed.
Print Assumptions C16_remove_when.

Theorem C16_remove_effect : forall D (g : graph D) i g' n, reachable g -> remove_node_by_id g (IdStr i) = (g', Ok n) ->
  has_node g i n /\ no_node g' i /\
  dkeys (g_nodes g') = filter (fun j => negb (String.eqb j i)) (dkeys (g_nodes g)) /\
  (forall j m, j <> i -> has_node g j m -> exists m', has_node g' j m' /\ core m' = core m /\
     n_children m' = filter (fun x => negb (String.eqb x i)) (n_children m) /\
     n_parents m' = filter (fun x => negb (String.eqb x i)) (n_parents m)).
Proof. exact @remove_node_effect. Qed.
Print Assumptions C16_remove_effect.

Example C16_example : exists g' n, remove_node_by_id (built diamond) (IdStr "1") = (g', Ok n) /\
  map (fun e => (fst e, n_children (snd e), n_parents (snd e))) (g_nodes g') =
    [("0", ["2"], []); ("2", ["3"], ["0"]); ("3", ["4"], ["2"]); ("4", [], ["3"])].
Proof. do 2 eexists. split; [vm_compute; reflexivity | vm_compute; reflexivity]. Qed.

(** ** C17 *)
Theorem C17_heads : forall D (g : graph D), reachable g ->
  exists l, get_heads_id g = Ok l /\ NoDup l /\ forall x, In x l <-> head g x.
Proof. exact @heads_exact. Qed.
Print Assumptions C17_heads.
Theorem C17_tails : forall D (g : graph D), reachable g ->
  exists l, get_tails_id g = Ok l /\ NoDup l /\ forall x, In x l <-> tail g x.
Proof. exact @tails_exact. Qed.
Print Assumptions C17_tails.

Example C17_example : get_heads_id (built loop) = Ok ["x"] /\ get_tails_id (built loop) = Ok [] /\
  get_heads_id (built two_heads) = Ok ["H"; "P"] /\ get_tails_id (built forest) = Ok ["2"; "3"; "5"].
Proof. vm_compute. repeat split. Qed.

(** ** C18, C19 *)
Theorem C18_circular : forall D (g : graph D), reachable g -> exists errs, validate g = Ok errs /\
  ((exists l, In (CIRCULAR_REFS l) errs) <-> exists c, cycle g c) /\
  (forall l, In (CIRCULAR_REFS l) errs -> exists c, cycle g c /\ incl c l) /\
  (forall l x, In (CIRCULAR_REFS l) errs -> In x l -> leads_to_cycle g x).
Proof. exact @circular_reported. Qed.
Print Assumptions C18_circular.

Example C18_example : validate (built loop) = Ok [CIRCULAR_REFS ["0"; "1"; "2"; "1"]].
Proof. vm_compute. reflexivity. Qed.
Example C18_example_valid : validate (built diamond) = Ok [].
Proof. vm_compute. reflexivity. Qed.

(** The fourth part of C18_circular is what holds in place of C19: every reported id leads
    to a cycle. *)
Theorem C19_leads_partial : forall D (g : graph D) errs l x, reachable g -> validate g = Ok errs ->
  In (CIRCULAR_REFS l) errs -> In x l -> leads_to_cycle g x.
Proof. exact @circular_reported_leads. Qed.
Print Assumptions C19_leads_partial.

(** x -> 0 -> 1 -> 2 -> 1: 0 is reported but lies on no cycle. *)
Theorem C19_refuted : exists (g : graph unit) errs l x, reachable g /\ validate g = Ok errs /\ In (CIRCULAR_REFS l) errs /\
  In x l /\ forall c, cycle g c -> ~ In x c.
Proof.
  exists (built loop). eexists. eexists. exists "0". split; [apply built_reachable | ].
  split; [vm_compute; reflexivity | ]. split; [left; reflexivity | ]. split; [left; reflexivity | ].
  intros c Hc Hi. apply (only_parent_cycle (built loop) "0" "x" c); auto; [apply built_reachable | | ].
  - eexists. split; [vm_compute; reflexivity | vm_compute; reflexivity].
  - eexists. split; [vm_compute; reflexivity | vm_compute; reflexivity].
Qed.
Print Assumptions C19_refuted.

(** ** C20, C21 *)
Theorem C20_paths : forall D (g : graph D) s e d, reachable g -> valid g ->
  (exists n, has_node g s n) -> (exists n, has_node g e n) ->
  exists ps, get_all_paths g s e d = Ok ps /\ NoDup ps /\
    forall l, In l ps <-> path g s e l /\ (Z.of_nat (length l) <= d)%Z.
Proof. exact @paths_exact. Qed.
Print Assumptions C20_paths.

Example C20_example : get_all_paths (built diamond) "0" "4" 10 = Ok [["0"; "1"; "3"; "4"]; ["0"; "2"; "3"; "4"]] /\
  get_all_paths (built diamond) "0" "4" 3 = Ok [].
Proof. vm_compute. split; reflexivity. Qed.
Example C20_example_valid : valid (built diamond).
Proof. apply valid_validate; [apply built_reachable | vm_compute; reflexivity]. Qed.

Theorem C21_refused : forall D (g : graph D) s e d, reachable g ->
  (exists c, cycle g c) \/ (exists h, bad_head g h) \/ no_node g s \/ no_node g e ->
  exists m, get_all_paths g s e d = Err (EValue m).
Proof. exact @paths_refused. Qed.
Print Assumptions C21_refused.

Theorem C21_returns : forall D (g : graph D) s e d, reachable g ->
  (exists ps, get_all_paths g s e d = Ok ps) <->
  valid g /\ (exists n, has_node g s n) /\ (exists n, has_node g e n).
Proof. exact @paths_returns. Qed.
Print Assumptions C21_returns.

Example C21_example : (exists m, get_all_paths (built loop) "x" "1" 10 = Err (EValue m)) /\
  (exists m, get_all_paths (built [add "a"]) "a" "a" 10 = Err (EValue m)) /\
  (exists m, get_all_paths (built diamond) "0" "9" 10 = Err (EValue m)).
Proof. repeat split; eexists; vm_compute; reflexivity. Qed.

(** ** C22 *)
(** Each node connected to a head is listed; nodes that are not heads are listed once;
    heads at most twice; nothing is listed twice exactly when no two heads are connected. *)
Theorem C22_order_partial : forall D (g : graph D), reachable g ->
  exists l, sequential_order_of_execution g = Ok l /\
  (forall x, In x l <-> exists h, head g h /\ connected g h x) /\
  (forall x, In x l -> ~ head g x -> count_occ string_dec l x = 1) /\
  (forall x, count_occ string_dec l x <= 2) /\
  (NoDup l <-> forall h h', head g h -> head g h' -> connected g h h' -> h = h').
Proof. exact @order_exact. Qed.
Print Assumptions C22_order_partial.

Theorem C22_covers_partial : forall D (g : graph D) l, reachable g -> acyclic g -> sequential_order_of_execution g = Ok l ->
  forall x, In x l <-> exists n, has_node g x n.
Proof. exact @order_covers. Qed.
Print Assumptions C22_covers_partial.

(** The statement holds for forests. *)
Theorem C22_forest_partial : forall D (g : graph D), reachable g -> acyclic g ->
  (forall i n, has_node g i n -> length (n_parents n) <= 1) ->
  exists l, sequential_order_of_execution g = Ok l /\ topological g l.
Proof. exact @order_forest. Qed.
Print Assumptions C22_forest_partial.

Example C22_example : sequential_order_of_execution (built forest) = Ok ["0"; "1"; "2"; "3"; "4"; "5"] /\
  acyclic (built forest).
Proof.
  split; [vm_compute; reflexivity | ]. apply valid_validate; [apply built_reachable | vm_compute; reflexivity].
Qed.

(** Acyclic, but P is listed twice. *)
Theorem C22_refuted : exists (g : graph unit) l, reachable g /\ acyclic g /\ sequential_order_of_execution g = Ok l /\
  ~ NoDup l.
Proof.
  exists (built two_heads). eexists. split; [apply built_reachable | ].
  split; [apply valid_validate; [apply built_reachable | vm_compute; reflexivity] | ].
  split; [vm_compute; reflexivity | ]. intros H.
  repeat match goal with H : NoDup (_ :: _) |- _ => apply NoDup_cons_iff in H; destruct H end. simpl in *. tauto.
Qed.
Print Assumptions C22_refuted.

(** Acyclic with a single head, but C is listed before its parent X:
    R -> X, R -> P, P -> X, P -> C, X -> C. *)
Theorem C22_refuted_order : exists (g : graph unit) l h, reachable g /\ acyclic g /\
  (forall x, head g x -> x = h) /\ sequential_order_of_execution g = Ok l /\
  exists a b x y, l = a ++ x :: b /\ In y b /\ edge g y x.
Proof.
  exists (built [root "R"; add "X"; add "P"; add "C"; link "R" "X"; link "R" "P"; link "P" "X"; link "P" "C"; link "X" "C"]).
  eexists. exists "R". split; [apply built_reachable | ].
  split; [apply valid_validate; [apply built_reachable | vm_compute; reflexivity] | ]. split.
  - intros x Hx. apply heads_list with (l := ["R"]) in Hx; [ | apply built_reachable | vm_compute; reflexivity].
    destruct Hx as [<- | []]. reflexivity.
  - split; [vm_compute; reflexivity | ]. exists ["R"; "P"], ["X"], "C", "X". split; [reflexivity | ].
    split; [left; reflexivity | ]. eexists. split; [vm_compute; reflexivity | left; reflexivity].
Qed.
Print Assumptions C22_refuted_order.
