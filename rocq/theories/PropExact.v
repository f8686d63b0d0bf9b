(** Properties C54 to C61: the exact statements that hold where a property was refuted. *)
From Verif Require Import PyBase PyNum Json Version Classes Graph SpecVersion SpecDoc SpecGraph.
From Verif Require Import VersionFacts ClassFacts DocFacts ReloadFacts GraphApi PropVersion PropClasses PropGraph.
Open Scope string_scope.
Open Scope list_scope.

(** ** C54 *)
Theorem C54_component_wise : forall u v,
  (ver_lt u v = true <-> (v_major u < v_major v /\ v_minor u < v_minor v /\ v_patch u < v_patch v)%Z) /\
  (ver_gt u v = true <-> (v_major u > v_major v /\ v_minor u > v_minor v /\ v_patch u > v_patch v)%Z) /\
  (ver_le u v = true <-> (v_major u <= v_major v /\ v_minor u <= v_minor v /\ v_patch u <= v_patch v)%Z) /\
  (ver_ge u v = true <-> (v_major u >= v_major v /\ v_minor u >= v_minor v /\ v_patch u >= v_patch v)%Z).
Proof. exact comparisons_exact. Qed.
Print Assumptions C54_component_wise.
Theorem C54_partial_order : forall u v w,
  ver_le u u = true /\ (ver_le u v = true -> ver_le v u = true -> u = v) /\
  (ver_le u v = true -> ver_le v w = true -> ver_le u w = true) /\ (ver_ge u v = ver_le v u) /\ (ver_gt u v = ver_lt v u).
Proof. exact le_partial_order. Qed.
Print Assumptions C54_partial_order.
Example C54_example : ver_lt (mkVersion 2 7 0) (mkVersion 3 8 1) = true /\ ver_lt (mkVersion 3 7 94) (mkVersion 3 8 0) = false.
Proof. split; reflexivity. Qed.

(** ** C55 *)
Theorem C55_never_cleans : forall ver d, (0 <= v_patch ver)%Z -> data_clean_unsupported ver d = d.
Proof. exact data_clean_noop. Qed.
Print Assumptions C55_never_cleans.
Example C55_example : oget (obj_clean_unsupported (mkVersion 3 7 94) kf_c2) "c2" = VInt 1.
Proof. reflexivity. Qed.

(** ** C56 *)
Theorem C56_export_exact : forall ver c o k v, wf_obj c o ->
  exists d, obj_json ver o = VDict d /\
    (dget k d = Some v <->
     In k (attrs_of c) /\ oget o k = v /\
     ((v <> VNone /\ py_eq v (get_or_none k (default_values c ver)) = false) \/
      (v = VNone /\ c = CSlotKeyframe /\ k = "name"))).
Proof. exact obj_json_exact. Qed.
Print Assumptions C56_export_exact.
Example C56_example : obj_json SPINE_3_8 kf_c2 = VDict [("name", VNone); ("c2", VInt 1)] /\ wf_obj CSlotKeyframe kf_c2.
Proof. split; [reflexivity | repeat split]. Qed.

(** ** C57 *)
Theorem C57_reload_exact : forall v x, load_document v = Ok x ->
  ((exists y, load_document (document_json x) = Ok y) <->
   d_bones (doc_data x) <> [] /\ d_slots (doc_data x) <> [] /\ no_null_required (doc_data x)).
Proof. exact load_reloadable_iff. Qed.
Print Assumptions C57_reload_exact.
Example C57_example : exists x y, load_document ex_doc = Ok x /\ load_document (document_json x) = Ok y.
Proof. do 2 eexists. split; [vm_compute; reflexivity | vm_compute; reflexivity]. Qed.

(** ** C58 *)
Theorem C58_loads : forall d t c,
  In (t, c) [(VStr "mesh", CSkinMesh); (VStr "path", CSkinPath); (VStr "linkedmesh", CSkinLinkedMesh); (VNone, CSkinAttachment)] ->
  get_or_none "type" d = t ->
  (forall k, In k (dkeys d) -> In k (attrs_of c)) ->
  (forall k, In k ["name"; "path"; "skin"] -> is_str_or_null (get_or_none k d) = true) ->
  exists o, mk_attachment (VDict d) = Ok o /\ o_cls o = c /\
    (forall k, In k (attrs_of c) -> oget o k = get_or_none k d).
Proof. exact C11_loads_partial. Qed.
Print Assumptions C58_loads.
Theorem C58_refused : forall d,
  (forall t, In t ["point"; "clipping"; "boundingbox"] -> dget "type" d = Some (VStr t) ->
     exists l, mk_attachment (VDict d) = Err (EUnsupported l) /\ In "type" l) /\
  (dget "type" d = Some (VStr "region") ->
     mk_attachment (VDict d) = Err (EValue "wrong skin attachment type")).
Proof. exact attachment_never. Qed.
Print Assumptions C58_refused.
Example C58_example : exists o, mk_attachment (VDict [("type", VStr "mesh"); ("path", VStr "p"); ("hull", VInt 4)]) = Ok o /\
  oget o "hull" = VInt 4.
Proof. eexists. split; [vm_compute; reflexivity | vm_compute; reflexivity]. Qed.

(** ** C59 *)
Theorem C59_leads : forall D (g : graph D) errs l x, reachable g -> validate g = Ok errs ->
  In (CIRCULAR_REFS l) errs -> In x l -> leads_to_cycle g x.
Proof. exact @circular_reported_leads. Qed.
Print Assumptions C59_leads.
Example C59_example : leads_to_cycle (built loop) "0".
Proof.
  eapply C59_leads with (l := ["0"; "1"; "2"; "1"]); [apply built_reachable | vm_compute; reflexivity | left; reflexivity | left; reflexivity].
Qed.

(** ** C60 *)
Theorem C60_order : forall D (g : graph D), reachable g ->
  exists l, sequential_order_of_execution g = Ok l /\
  (forall x, In x l <-> exists h, head g h /\ connected g h x) /\
  (acyclic g -> forall x, In x l <-> exists n, has_node g x n) /\
  (forall x, In x l -> ~ head g x -> count_occ string_dec l x = 1) /\
  (forall x, count_occ string_dec l x <= 2) /\
  (NoDup l <-> forall h h', head g h -> head g h' -> connected g h h' -> h = h').
Proof. exact @order_all. Qed.
Print Assumptions C60_order.
Example C60_example : sequential_order_of_execution (built two_heads) = Ok ["H"; "P"; "C"; "X"; "P"].
Proof. vm_compute. reflexivity. Qed.

(** ** C61 *)
Theorem C61_forest : forall D (g : graph D), reachable g -> acyclic g ->
  (forall i n, has_node g i n -> length (n_parents n) <= 1) ->
  exists l, sequential_order_of_execution g = Ok l /\ topological g l.
Proof. exact @order_forest. Qed.
Print Assumptions C61_forest.
Example C61_example : sequential_order_of_execution (built forest) = Ok ["0"; "1"; "2"; "3"; "4"; "5"] /\
  forallb (fun e => Nat.leb (length (n_parents (snd e))) 1) (g_nodes (built forest)) = true.
Proof. vm_compute. split; reflexivity. Qed.
