(** Properties C104 and C105 (loading again what an editor exports after any calls). *)
From Verif Require Import PyBase PyNum Json JsonText Version Classes Graph SpineGraph SpecDoc DrawOrder AnimData Editor SpecAnim SpecEditor Files SpecText SpecFiles
  SpecReload EditorReload EditorRun PropEditor PropFiles.
Open Scope string_scope.

(** ** C104: what an editor exports can be loaded.  False: the clean-up may remove all slots, *)
Definition j104 : val := json "3.8.99" [bone "root" []] [slot "s" (shows "m")] []
  [skin_doc "default" [("s", VDict [("k", region "p")])]] [("idle", timelines [])].
Definition o104 : list eop := [EoClean in_order].
Theorem C104_refuted : exists e0 ops e, history e0 ops e /\ (exists e1, mk_editor (editor_json e0) = Ok e1) /\
  mk_editor (editor_json e) = Err (EKey "slots").
Proof.
  exists (ed j104), (rev o104), (after j104 o104). split; [apply (runs_ok j104 o104); [constructor; [exact in_order_ok | constructor] | vm_compute; reflexivity] | ].
  split; [eexists; vm_compute; reflexivity | vm_compute; reflexivity].
Qed.
Print Assumptions C104_refuted.
(** erasing a skin may make a linked mesh a path with attributes that no path has, *)
Definition j104' : val := json "3.8.99" [bone "root" []] [slot "s" (shows "k")] []
  [skin_doc "default" [("s", VDict [("k", VDict [("type", VStr "linkedmesh"); ("skin", VStr "b"); ("parent", VStr "k"); ("width", VInt 8); ("height", VInt 9); ("path", VStr "p")])])];
   skin_doc "b" [("s", VDict [("k", VDict [("type", VStr "path"); ("vertexCount", VInt 3)])])]] [("idle", timelines [])].
Definition o104' : list eop := [EoEraseSkins in_order ["b"] true].
Theorem C104_refuted_attributes : exists e0 ops e l, history e0 ops e /\ (exists e1, mk_editor (editor_json e0) = Ok e1) /\
  mk_editor (editor_json e) = Err (EUnsupported l).
Proof.
  exists (ed j104'), (rev o104'), (after j104' o104'). eexists. split; [apply (runs_ok j104' o104'); [constructor; [exact in_order_ok | constructor] | vm_compute; reflexivity] | ].
  split; [eexists; vm_compute; reflexivity | vm_compute; reflexivity].
Qed.
Print Assumptions C104_refuted_attributes.
(** and a clean-up may remove a slot under which a skin files attachments. *)
Definition j104'' : val := json "3.8.99" [bone "root" []] [slot "a" (shows "x"); slot "a_SLOT" (shows "y")] []
  [skin_doc "default" [("a", VDict [("x", region "x")]); ("a_SLOT", VDict [])]] [("idle", timelines [])].
Theorem C104_refuted_slot : exists e0 ops e w, history e0 ops e /\ (exists e1, mk_editor (editor_json e0) = Ok e1) /\
  mk_editor (editor_json e) = Err (EAttr w).
Proof.
  exists (ed j104''), (rev o104), (after j104'' o104). eexists. split; [apply (runs_ok j104'' o104); [constructor; [exact in_order_ok | constructor] | vm_compute; reflexivity] | ].
  split; [eexists; vm_compute; reflexivity | vm_compute; reflexivity].
Qed.
Print Assumptions C104_refuted_slot.

(** ** C105: exactly when, and what is loaded *)
Theorem C105_exact : forall e0 ops e, history e0 ops e -> ((exists e', mk_editor (editor_json e) = Ok e') <-> can_reload (e_data e)).
Proof. exact reload_iff. Qed.
Print Assumptions C105_exact.
Theorem C105_same : forall e0 ops e, history e0 ops e -> forall e', mk_editor (editor_json e) = Ok e' ->
  no_null_time (e_data e) \/ ver_ge (e_ver e) SPINE_3_8 = true ->
  doc_skeleton (e_doc e') = doc_skeleton (e_doc e) /\ e_ver e' = e_ver e /\ same_data (e_data e) (e_data e') /\ editor_json e' = editor_json e.
Proof. exact reload_kept. Qed.
Print Assumptions C105_same.
(** On loading, and for documents with plain slot names and no path attachments *)
Theorem C105_loaded : forall e, loaded e -> ((exists e', mk_editor (editor_json e) = Ok e') <-> d_slots (e_data e) <> [] /\ no_null_required (e_data e)).
Proof. exact reload_fresh. Qed.
Print Assumptions C105_loaded.
Theorem C105_plain : forall e0 ops e, plain_slots (e_data e0) -> (forall sl k o, skin_attachment (e_data e0) sl k o -> o_cls o <> CSkinPath) ->
  (exists e1, mk_editor (editor_json e0) = Ok e1) -> history e0 ops e ->
  ((exists e', mk_editor (editor_json e) = Ok e') <-> d_slots (e_data e) <> []).
Proof. exact reload_plain. Qed.
Print Assumptions C105_plain.
Example C105_ex : history (ed jm) (rev hm) (after jm hm) /\ can_reload (e_data (after jm hm)) /\ plain_slots (e_data (ed jm)) /\
  (forall sl k o, skin_attachment (e_data (ed jm)) sl k o -> o_cls o <> CSkinPath) /\ (exists e1, mk_editor (editor_json (ed jm)) = Ok e1) /\
  ver_ge (e_ver (after jm hm)) SPINE_3_8 = true.
Proof.
  split; [exact hm_runs | ]. split; [apply (proj1 (C105_exact _ _ _ hm_runs)); eexists; vm_compute; reflexivity | ]. split; [apply jm_plain | ].
  split; [ | split; [eexists; vm_compute; reflexivity | vm_compute; reflexivity]].
  intros sl k o A. apply all_attachments_in in A. assert (F : forallb (fun x => match o_cls (snd x) with CSkinPath => false | _ => true end) (all_attachments (e_data (ed jm))) = true) by (vm_compute; reflexivity).
  rewrite forallb_forall in F. specialize (F _ A). cbn [snd] in F. intros C. rewrite C in F. discriminate.
Qed.
(** Through a file *)
Theorem C105_file : forall cwd p e0 ops e f g, history e0 ops e -> used e -> fs_ok f -> f cwd = Some Dir ->
  to_json cwd p e f = (g, Ok tt) -> ((exists e', from_json_file cwd p g = Ok e') <-> can_reload (e_data e)).
Proof.
  intros cwd p e0 ops e f g H U K D T. destruct (C97_read_back cwd p e f g U K D T) as [_ ->]. exact (C105_exact _ _ _ H).
Qed.
Print Assumptions C105_file.
