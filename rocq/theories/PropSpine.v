(** C23-C27, C63: the graph of a Spine document. *)
From Verif Require Import PyBase Json Graph SpecGraph SpineGraph SpecSpine IdFacts SpineFacts BuildFacts BuildTotal SpineRemove.
Open Scope string_scope.

(** ** C23 *)
(** Ids of elements of different kinds or names differ. *)
Theorem C23_ids_apart : forall t t' s s' i, In t kinds -> In t' kinds ->
  to_graph_id t (VStr s) = Ok i -> to_graph_id t' (VStr s') = Ok i -> t = t' /\ s = s'.
Proof.
  intros t t' s s' i Ht Ht' E E'. injection E as <-. injection E' as E'. symmetry in E'. exact (graph_id_inj t t' s s' Ht Ht' E').
Qed.
(** Converting back does not always give the name. *)
Theorem C23_back_refuted : exists t s i, In t kinds /\ to_graph_id t (VStr s) = Ok i /\ to_base_id t i <> s.
Proof.
  exists T_SLOT, "left_SLOT_arm", "left_SLOT_arm_SLOT". split; [vm_compute; tauto | ]. split; [vm_compute; reflexivity | ].
  vm_compute. discriminate.
Qed.
(** ** C63: it does exactly for the names in which "_KIND" does not occur. *)
Theorem C63_back_exact : forall t s i, In t kinds -> to_graph_id t (VStr s) = Ok i ->
  (to_base_id t i = s <-> ~ contains s ("_" ++ t)).
Proof. intros t s i Ht E. injection E as <-. exact (to_base_iff t s Ht). Qed.
Example C63_case : to_base_id T_SLOT "arm_SLOT" = "arm" /\ to_base_id T_SLOT "left_SLOT_arm_SLOT" = "left_arm" /\
  ~ contains "arm" "_SLOT" /\ contains "left_SLOT_arm" "_SLOT".
Proof.
  split; [reflexivity | ]. split; [reflexivity | ]. split; [ | exists "left", "_arm"; reflexivity].
  intros (a & b & E). do 4 (destruct a as [ | x a]; [discriminate E | injection E as <- E] || idtac). destruct a; discriminate E.
Qed.

(** A skeleton with two bones, a slot shown by two skins, and an ik constraint. *)
Definition doc : dict val :=
  [("bones", VList [VDict [("name", VStr "root")]; VDict [("name", VStr "arm"); ("parent", VStr "root")];
                    VDict [("name", VStr "aim"); ("parent", VStr "root")]]);
   ("slots", VList [VDict [("name", VStr "hand"); ("bone", VStr "arm")]; VDict [("name", VStr "head"); ("bone", VStr "root")]]);
   ("ik", VList [VDict [("name", VStr "reach"); ("bones", VList [VStr "arm"]); ("target", VStr "aim")]]);
   ("skins", VList [VDict [("name", VStr "a"); ("attachments", VDict [("hand", VDict [("glove", VDict [("path", VStr "red")])])])];
                    VDict [("name", VStr "b"); ("attachments", VDict [("hand", VDict [("glove", VDict [])])])]])].
Definition doc_graph : sgraph := match create_from_json_data (VDict doc) with Ok g => g | Err _ => new_graph end.
Example doc_builds : create_from_json_data (VDict doc) = Ok doc_graph.
Proof. vm_compute. reflexivity. Qed.

(** ** C24: the graph gives back bones, slots and ik constraints, in their order. *)
Theorem C24_round_trip : forall d g, create_from_json_data (VDict d) = Ok g ->
  graph_to_json g = Ok (mkGraphJson (each d "slots") (each d "bones") (each d "ik")).
Proof. intros d g E. exact (built_json d g (build_ok d g E)). Qed.
Example C24_case : exists j, graph_to_json doc_graph = Ok j /\ length (gj_bones j) = 3 /\ VList (gj_bones j) = get_item "bones" doc /\
  VList (gj_slots j) = get_item "slots" doc /\ VList (gj_ik j) = get_item "ik" doc.
Proof. eexists. split; [vm_compute; reflexivity | ]. repeat split; vm_compute; reflexivity. Qed.

(** ** C25: the edges are exactly the references of the document, the nodes its elements. *)
Theorem C25_edges : forall d g, create_from_json_data (VDict d) = Ok g -> forall p c, edge g p c <-> reference d p c.
Proof. intros d g E. exact (bu_edges d g (build_ok d g E)). Qed.
Theorem C25_nodes : forall d g, create_from_json_data (VDict d) = Ok g -> forall t i, typed g t i <-> element d t i.
Proof. intros d g E t i. exact (built_nodes d g t i (build_ok d g E)). Qed.
Theorem C25_reachable : forall d g, create_from_json_data (VDict d) = Ok g -> reachable g.
Proof. intros d g E. exact (good_reachable g (bu_good d g (build_ok d g E))). Qed.
Example C25_case : map (fun kv => (fst kv, n_children (snd kv))) (g_nodes doc_graph) =
  [("root_BONE", ["arm_BONE"; "aim_BONE"; "head_SLOT"]); ("arm_BONE", ["hand_SLOT"]); ("aim_BONE", ["reach_IK"]);
   ("hand_SLOT", ["glove_ATTACHMENT"]); ("glove_ATTACHMENT", ["red_IMAGE"; "glove_IMAGE"]); ("red_IMAGE", []); ("glove_IMAGE", []);
   ("head_SLOT", []); ("reach_IK", ["arm_BONE"])].
Proof. vm_compute. reflexivity. Qed.

(** ** C26: a well-shaped document is refused exactly because of repeated names of bones, slots
    or ik constraints, or of a bone that is its own parent; always with ValueError. *)
Theorem C26_build_iff : forall d, doc_shape d ->
  ((exists g, create_from_json_data (VDict d) = Ok g) <-> unique_names d /\ no_self_parent d).
Proof. intros d D. exact (proj1 (build_iff d D)). Qed.
Theorem C26_value_error : forall d, doc_shape d -> ~ (unique_names d /\ no_self_parent d) ->
  exists w, create_from_json_data (VDict d) = Err (EValue w).
Proof. intros d D. exact (proj2 (build_iff d D)). Qed.
Theorem C26_not_object : forall v, (forall d, v <> VDict d) -> exists w, create_from_json_data v = Err (EType w).
Proof. intros v H. destruct v; try (eexists; reflexivity). destruct (H d eq_refl). Qed.
Example C26_shape : doc_shape doc /\ unique_names doc /\ no_self_parent doc.
Proof.
  split.
  - split.
    + eexists. split; [reflexivity | eexists; reflexivity].
    + intros v E. injection E as <-. eexists. reflexivity.
    + intros v E. injection E as <-. eexists. reflexivity.
    + intros _. eexists. split; [reflexivity | eexists; reflexivity].
    + intros v H. repeat (destruct H as [<- | H]; [eexists; split; reflexivity | ]). destruct H.
    + intros v H. repeat (destruct H as [<- | H]; [eexists; split; reflexivity | ]). destruct H.
    + intros v H. destruct H as [<- | []]. split; [eexists; split; reflexivity | ]. split; [eexists; split; reflexivity | ]. eexists; reflexivity.
    + intros v H. destruct H as [<- | [<- | []]]; (split; [eexists; reflexivity | ]); intros _; (split; [intros w Hw; repeat (destruct Hw as [<- | Hw]; [exact I | ]); destruct Hw | ]); eexists; (split; [reflexivity | ]);
        intros w s x Hw Hn E; (destruct Hw as [<- | [<- | []]]; injection Hn as <-; [ | discriminate E]);
        injection E as <-; right; eexists; (split; [reflexivity | ]); intros k a [E | []]; injection E as <- <-; eexists; reflexivity.
  - split.
    + split; [ | split]; vm_compute; repeat constructor; simpl; intuition discriminate.
    + intros v s H Hs Hp. repeat (destruct H as [<- | H]; [vm_compute in Hs, Hp; congruence | ]). destruct H.
Qed.
(** The same name for a bone, a slot and an ik constraint is accepted; twice for slots, or a
    parentless bone named None, is not. *)
Definition bones (l : list string) : string * val := ("bones", VList (map (fun s => VDict [("name", VStr s)]) l)).
Definition slots (l : list string) : string * val := ("slots", VList (map (fun s => VDict [("name", VStr s); ("bone", VStr "a")]) l)).
Example C26_cases :
  (exists g, create_from_json_data (VDict [bones ["a"]; slots ["a"]; ("skins", VList []);
     ("ik", VList [VDict [("name", VStr "a"); ("bones", VList [VStr "a"])]])]) = Ok g /\ dkeys (g_nodes g) = ["a_BONE"; "a_SLOT"; "a_IK"]) /\
  create_from_json_data (VDict [bones ["a"]; slots ["s"; "s"]; ("skins", VList [])]) = Err (EValue "ids need to be unique") /\
  create_from_json_data (VDict [bones ["None"]]) = Err (EValue "A node cannot be its own child").
Proof. split; [eexists; split; vm_compute; reflexivity | ]. split; vm_compute; reflexivity. Qed.

(** ** C27 *)
Theorem C27_leafs : forall (g : sgraph) t, reachable g ->
  exists g' l, remove_leafs_of_type t g = (g', Ok (map (to_base_id t) l)) /\
    NoDup l /\ (forall i, In i l <-> only_below g t i) /\ without g g' (only_below g t) /\ reachable g' /\
    (forall i, typed g' t i -> ~ tail g' i).
Proof. exact leafs_removed. Qed.
Theorem C27_heads : forall (g : sgraph) t, reachable g ->
  exists g' l, remove_heads_of_type t g = (g', Ok (map (to_base_id t) l)) /\
    NoDup l /\ (forall i, In i l <-> only_above g t i) /\ without g g' (only_above g t) /\ reachable g' /\
    (forall i, typed g' t i -> ~ head g' i).
Proof. exact heads_removed. Qed.
(** Attachment and image heads of the graph once its hand is removed, by the same functions. *)
Example C27_case : exists g1 g2, remove_node_by_id doc_graph (IdStr "hand_SLOT") = (g1, Ok g2) /\
  snd (remove_leafs_of_type "SLOT" g1) = Ok ["head"] /\
  (let '(g3, r3) := remove_heads_of_type "ATTACHMENT" g1 in r3 = Ok ["glove"] /\ snd (remove_heads_of_type "IMAGE" g3) = Ok ["red"; "glove"]).
Proof.
  eexists. eexists. split; [vm_compute; reflexivity | ]. split; vm_compute; repeat split; reflexivity.
Qed.

Print Assumptions C23_ids_apart.
Print Assumptions C23_back_refuted.
Print Assumptions C63_back_exact.
Print Assumptions C24_round_trip.
Print Assumptions C25_edges.
Print Assumptions C25_nodes.
Print Assumptions C25_reachable.
Print Assumptions C26_build_iff.
Print Assumptions C26_value_error.
Print Assumptions C26_not_object.
Print Assumptions C27_leafs.
Print Assumptions C27_heads.
