(** Properties C132-C133 (removing slots and attachments by hand). *)
From Verif Require Import PyBase PyNum Json Version Classes Graph SpecGraph SpineGraph SpecSpine DrawOrder SpecDraw AnimData Editor SpecAnim SpecEditor SpecFail
  SpecContainer ContainerFacts SpecRefs EditorHist RefsFacts EditorRun.
Open Scope string_scope.

(** ** C132: removing slots and attachments of a graph by their names *)
Theorem C132_slots : removes_names slot_id remove_slots.
Proof. exact remove_slots_names. Qed.
Print Assumptions C132_slots.
Theorem C132_attachments : removes_names att_id remove_attachments.
Proof. exact remove_attachments_names. Qed.
Print Assumptions C132_attachments.
(** Two slots on a bone with an attachment each: both slots go; of a list with a missing
    name, or a name twice, those before it. *)
Definition n132 (i t : string) : gop ndata := OpAddNode (IdStr i) None (Some (NTStr t)).
Definition g132 : sgraph := Graph.run default_factory new_graph
  [n132 "root_BONE" "BONE"; n132 "s_SLOT" "SLOT"; n132 "t_SLOT" "SLOT"; n132 "m_ATTACHMENT" "ATTACHMENT";
   OpAddEdge (IdStr "root_BONE") (IdStr "s_SLOT"); OpAddEdge (IdStr "root_BONE") (IdStr "t_SLOT"); OpAddEdge (IdStr "s_SLOT") (IdStr "m_ATTACHMENT")].
Definition seen132 (x : sgraph * res (list (node ndata))) : list string * res (list (string * list string * list string)) :=
  (dkeys (g_nodes (fst x)), match snd x with Ok l => Ok (map (fun n => (n_id n, n_children n, n_parents n)) l) | Err e => Err e end).
Example C132_ex : reachable g132 /\ all_there slot_id g132 ["t"; "s"] /\ ~ all_there slot_id g132 ["t"; "t"] /\ ~ all_there slot_id g132 ["s"; "u"; "t"] /\
  seen132 (remove_slots ["t"; "s"] g132) = (["root_BONE"; "m_ATTACHMENT"], Ok [("t_SLOT", [], ["root_BONE"]); ("s_SLOT", ["m_ATTACHMENT"], ["root_BONE"])]) /\
  seen132 (remove_slots ["t"; "t"] g132) = (["root_BONE"; "s_SLOT"; "m_ATTACHMENT"], Err (EValue "Node was not found in the graph")) /\
  seen132 (remove_slots ["s"; "u"; "t"] g132) = (["root_BONE"; "t_SLOT"; "m_ATTACHMENT"], Err (EValue "Node was not found in the graph")) /\
  seen132 (remove_attachments ["m"] g132) = (["root_BONE"; "s_SLOT"; "t_SLOT"], Ok [("m_ATTACHMENT", [], ["s_SLOT"])]).
Proof.
  split; [eexists _, _; reflexivity | ]. split.
  { split; [repeat constructor; cbn; intuition discriminate | ]. intros x [<- | [<- | []]]; eexists; vm_compute; auto. }
  split; [intros [N _]; inversion N as [ | ? ? K _]; apply K; left; reflexivity | ].
  split; [intros [_ N]; destruct (N "u") as [n K]; [right; left; reflexivity | ]; vm_compute in K; repeat destruct K as [K | K]; try discriminate K; contradiction K | ].
  repeat split; vm_compute; reflexivity.
Qed.

(** ** C133: the editor's remove_slots and remove_attachments *)
Theorem C133_slots : forall e0 ops e ids names, history e0 ops e -> NoDup names ->
  (forall k, In k (draw_keys (e_data e)) -> computable ids names k) ->
  exists e', ed_remove_slots ids names e = (e', Ok tt) /\ slots_unreferenced ids e e' /\
    Forall2 (fun k k' => remove_offsets_with_ids ids names k = (k', Ok tt)) (draw_keys (e_data e)) (draw_keys (e_data e')).
Proof. intros e0 ops e ids names _ N. exact (remove_slots_works ids names N e). Qed.
Print Assumptions C133_slots.
Theorem C133_slots_fail : forall e0 ops e ids names before k after, history e0 ops e -> NoDup names ->
  draw_keys (e_data e) = (before ++ k :: after)%list -> (forall k', In k' before -> computable ids names k') -> ~ computable ids names k ->
  exists e' x before', ed_remove_slots ids names e = (e', Err x) /\ slots_unreferenced ids e e' /\
    draw_keys (e_data e') = (before' ++ k :: after)%list /\ Forall2 (fun k k' => remove_offsets_with_ids ids names k = (k', Ok tt)) before before' /\
    (not_by_int names (do_offsets k) -> exists w, x = EType w) /\ (~ not_by_int names (do_offsets k) -> exists w, x = EValue w).
Proof. intros e0 ops e ids names before k after _ N. exact (remove_slots_fails ids names N e before k after). Qed.
Print Assumptions C133_slots_fail.
Theorem C133_attachments : forall e0 ops e ids, history e0 ops e ->
  exists e', ed_remove_attachments ids e = (e', Ok tt) /\ attachments_unreferenced ids e e'.
Proof. exact remove_attachments_works. Qed.
Print Assumptions C133_attachments.
(** The slot "t" goes from the skin, the timelines and the deforms, and its offset from the draw
    order; a draw order of "x" is refused unless "x" is removed too. *)
Definition order133 (l : list (string * Z)) : val :=
  VDict [("time", VInt 0); ("offsets", VList (map (fun p => VDict [("slot", VStr (fst p)); ("offset", VInt (snd p))]) l))].
Definition verts : val := VList [VDict [("time", VInt 0)]].
Definition j133 : val := json "3.8.99" [bone "root" []] [slot "s" (shows "m"); slot "t" (shows "n"); slot "u" (shows "o")] []
  [skin_doc "default" [("s", VDict [("m", region "p"); ("m2", region "p2")]); ("t", VDict [("n", region "q")])]]
  [("walk", VDict [("slots", VDict [("t", frame (VStr "n")); ("s", frame (VStr "m"))]);
                   ("deform", VDict [("default", VDict [("s", VDict [("m", verts); ("m2", verts)]); ("t", VDict [("n", verts)])]); ("other", VDict [("s", VDict [("m", verts)])])]);
                   ("drawOrder", VList [order133 [("s", 2%Z); ("t", 1%Z)]; order133 [("x", 1%Z)]])])].
Definition seen133 {A} (x : editor * res A) :=
  let d := e_data (fst x) in
  (map (fun s => (slot_name s, oget s "attachment")) (d_slots d),
   flat_map (fun s => map (fun kv => (fst kv, dkeys (snd kv))) (sk_atts s)) (d_skins d),
   flat_map (fun kv => dkeys (an_slots (snd kv))) (d_animations d),
   flat_map (fun kv => map (fun kw => (fst kw, map (fun ku => (fst ku, dkeys (snd ku))) (snd kw))) (an_deform (snd kv))) (d_animations d),
   map (fun k => map (fun o => (oget o "slot", oget o "offset")) (do_offsets k)) (draw_keys d)).
Definition slots133 := [("s", VStr "m"); ("t", VStr "n"); ("u", VStr "o")].
Example C133_ex_slots : loads j133 = true /\
  snd (ed_remove_slots ["t"; "x"] ["s"; "t"; "u"] (ed j133)) = Ok tt /\
  seen133 (ed_remove_slots ["t"; "x"] ["s"; "t"; "u"] (ed j133)) =
    (slots133, [("s", ["m"; "m2"])], ["s"], [("default", [("s", ["m"; "m2"])]); ("other", [("s", ["m"])])],
     [[(VStr "s", VInt 1)]; []]) /\
  (exists w, snd (ed_remove_slots ["t"] ["s"; "t"; "u"] (ed j133)) = Err (EValue w)) /\
  seen133 (ed_remove_slots ["t"] ["s"; "t"; "u"] (ed j133)) =
    (slots133, [("s", ["m"; "m2"])], ["s"], [("default", [("s", ["m"; "m2"])]); ("other", [("s", ["m"])])],
     [[(VStr "s", VInt 1)]; [(VStr "x", VInt 1)]]).
Proof. split; [vm_compute; reflexivity | ]. split; [vm_compute; reflexivity | ]. split; [vm_compute; reflexivity | ]. split; [eexists; vm_compute; reflexivity | vm_compute; reflexivity]. Qed.
(** The attachment "m" goes from the skin and its deforms; it stays the setup attachment of "s",
    which goes only under its graph id. *)
Example C133_ex_attachments :
  seen133 (ed_remove_attachments ["m"; "n_ATTACHMENT"] (ed j133)) =
    ([("s", VStr "m"); ("t", VNone); ("u", VStr "o")], [("s", ["m2"]); ("t", ["n"])], ["t"; "s"],
     [("default", [("s", ["m2"]); ("t", ["n"])]); ("other", [("s", ["m"])])],
     [[(VStr "s", VInt 2); (VStr "t", VInt 1)]; [(VStr "x", VInt 1)]]).
Proof. vm_compute. reflexivity. Qed.
(** The hypotheses of C133_slots_fail: the first draw order can be computed, the second cannot. *)
Example C133_hyps : history (ed j133) [] (ed j133) /\ exists k1 k2, draw_keys (e_data (ed j133)) = [k1; k2] /\
  computable ["t"] ["s"; "t"; "u"] k1 /\ ~ computable ["t"] ["s"; "t"; "u"] k2 /\ computable ["t"; "x"] ["s"; "t"; "u"] k2.
Proof.
  split; [constructor; apply loads_ok; vm_compute; reflexivity | ]. eexists _, _. split; [vm_compute; reflexivity | ].
  assert (N : NoDup ["s"; "t"; "u"]) by (repeat constructor; cbn; intuition discriminate).
  split; [ | split].
  - apply computable_iff; auto. eexists. vm_compute. reflexivity.
  - intros C. apply computable_iff in C; auto. destruct C as [k C]. vm_compute in C. discriminate C.
  - apply computable_iff; auto. eexists. vm_compute. reflexivity.
Qed.
