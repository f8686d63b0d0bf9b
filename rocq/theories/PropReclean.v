(** Properties C145 to C148 (saving and loading against building the graph again). *)
From Verif Require Import PyBase PyNum Json Version Classes Graph SpineGraph DrawOrder SpecDraw SpecDoc AnimData Editor SpecAnim SpecEditor SpecFail SpecAny SpecReload
  EditorRun EditorReady ReloadImages ReloadClean ReloadOut ReloadAgain.
From Verif Require PropEditor PropFail PropAgain PropAny PropRepair PropImages.
Open Scope string_scope.

(** ** C145: loading an export builds the same graph as erase_skins([]), and lists exactly the images in use *)
Theorem C145_graph : forall e0 ops e e', any_calls e0 ops e -> mk_editor (editor_json e) = Ok e' -> no_null_time (e_data e) \/ ver_ge (e_ver e) SPINE_3_8 = true ->
  forall enum, estep e (EoEraseSkins enum [] true) = (mkEditor (e_doc e) (e_images e) (e_graph e'), Ok tt).
Proof. exact reloaded_graph. Qed.
Print Assumptions C145_graph.
Theorem C145_images : forall e0 ops e e', any_calls e0 ops e -> mk_editor (editor_json e) = Ok e' -> no_null_time (e_data e) \/ ver_ge (e_ver e) SPINE_3_8 = true ->
  forall i, In i (dkeys (e_images e')) <-> image_in_use (e_data e) i.
Proof. exact reloaded_images. Qed.
Print Assumptions C145_images.
(** For documents with sound draw orders (C142) the reloaded editor has no image that the editor has not. *)
Theorem C145_fewer : forall e0 ops e e', plain_slots (e_data e0) -> plain_images (e_data e0) -> draw_orders_ok (e_data e0) -> any_calls e0 ops e ->
  mk_editor (editor_json e) = Ok e' -> no_null_time (e_data e) \/ ver_ge (e_ver e) SPINE_3_8 = true -> forall i, In i (dkeys (e_images e')) -> In i (dkeys (e_images e)).
Proof. intros e0 ops e e' P1 P2 D H R T i Hi. apply (orders_images _ _ _ P1 P2 D H). exact (proj1 (reloaded_images _ _ _ _ H R T i) Hi). Qed.
Print Assumptions C145_fewer.
(** The calls of C141: image "p1" is not in use any more, but still listed until the document is saved and loaded. *)
Definition calls145 : list eop := [EoEraseAnimations in_order ["bad"] true false; EoEraseSkins in_order [] true; EoClean in_order].
Definition e145 : editor := PropAny.run_calls (ed PropImages.j139) calls145.
Example C145_ex : any_calls (ed PropImages.j139) calls145 e145 /\ ver_ge (e_ver e145) SPINE_3_8 = true /\ dkeys (e_images e145) = ["p1"; "p2"; "p3"] /\
  exists e', mk_editor (editor_json e145) = Ok e' /\ dkeys (e_images e') = ["p2"; "p3"].
Proof.
  split.
  - apply PropAny.run_any; [apply loads_ok; vm_compute; reflexivity | ]. repeat (apply Forall_cons || apply Forall_nil); first [exact in_order_ok | exact I].
  - split; [vm_compute; reflexivity | ]. split; [vm_compute; reflexivity | ]. eexists. split; [vm_compute; reflexivity | vm_compute; reflexivity].
Qed.

(** ** C146: a clean-up after saving and loading *)
Theorem C146_works : forall e0 ops e e' e1 enum enum' enum1, any_calls e0 ops e -> mk_editor (editor_json e) = Ok e' -> no_null_time (e_data e) \/ ver_ge (e_ver e) SPINE_3_8 = true ->
  plain_slots (e_data e0) -> order_ok enum -> order_ok enum' -> estep e (EoEraseSkins enum1 [] true) = (e1, Ok tt) ->
  ((exists e2 r, clean_animation enum e1 = (e2, Ok r)) <-> (exists e2 r, clean_animation enum' e' = (e2, Ok r))).
Proof. exact reload_works. Qed.
Print Assumptions C146_works.
Theorem C146_report : forall e0 ops e e' e1 enum enum' enum1, any_calls e0 ops e -> mk_editor (editor_json e) = Ok e' -> no_null_time (e_data e) \/ ver_ge (e_ver e) SPINE_3_8 = true ->
  plain_slots (e_data e0) -> order_ok enum -> order_ok enum' -> estep e (EoEraseSkins enum1 [] true) = (e1, Ok tt) ->
  forall e2 rem atts e2' rem' atts', clean_animation enum e1 = (e2, Ok (rem, atts)) -> clean_animation enum' e' = (e2', Ok (rem', atts')) ->
  (forall n, In n rem <-> In n rem') /\ (forall k, In k atts <-> In k atts') /\ map slot_name (d_slots (e_data e2)) = map slot_name (d_slots (e_data e2')) /\
  (forall sl k, (exists o, skin_attachment (e_data e2) sl k o) <-> (exists o, skin_attachment (e_data e2') sl k o)).
Proof. exact reload_report. Qed.
Print Assumptions C146_report.
(** The editor of C137: three calls failed, and a clean-up raises.  After saving and loading it removes "m2", as after building the graph again. *)
Example C146_ex : any_calls (ed PropAgain.j134) PropAny.calls136 PropRepair.e137 /\ plain_slots (e_data (ed PropAgain.j134)) /\ ver_ge (e_ver PropRepair.e137) SPINE_3_8 = true /\
  (exists e x, clean_animation in_order PropRepair.e137 = (e, Err x)) /\
  exists e' e2 e2', mk_editor (editor_json PropRepair.e137) = Ok e' /\ clean_animation in_order PropRepair.e137' = (e2, Ok ([], ["m2"])) /\ clean_animation in_order e' = (e2', Ok ([], ["m2"])).
Proof.
  split; [exact PropRepair.calls137 | ]. split; [exact (proj1 (proj2 PropRepair.C137_ex)) | ]. split; [vm_compute; reflexivity | ]. split; [eexists _, _; vm_compute; reflexivity | ].
  eexists _, _, _. split; [vm_compute; reflexivity | ]. split; [vm_compute; reflexivity | ]. vm_compute. reflexivity.
Qed.

(** ** C147: the export of a clean-up after saving and loading *)
Theorem C147_export : forall e0 ops e e' e1 enum enum' enum1, any_calls e0 ops e -> mk_editor (editor_json e) = Ok e' -> no_null_time (e_data e) \/ ver_ge (e_ver e) SPINE_3_8 = true ->
  plain_slots (e_data e0) -> order_ok enum -> order_ok enum' -> estep e (EoEraseSkins enum1 [] true) = (e1, Ok tt) ->
  forall e2 rem atts e2' rem' atts', clean_animation enum e1 = (e2, Ok (rem, atts)) -> clean_animation enum' e' = (e2', Ok (rem', atts')) -> editor_json e2' = editor_json e2.
Proof. exact reload_export. Qed.
Print Assumptions C147_export.
(** The editor of C137 again: the same document is exported, and it is not the one before the clean-up. *)
Example C147_ex : exists e' e2 e2', mk_editor (editor_json PropRepair.e137) = Ok e' /\ estep PropRepair.e137 (EoEraseSkins in_order [] true) = (PropRepair.e137', Ok tt) /\
  clean_animation in_order PropRepair.e137' = (e2, Ok ([], ["m2"])) /\ clean_animation in_order e' = (e2', Ok ([], ["m2"])) /\
  editor_json e2' = editor_json e2 /\ editor_json e2 <> editor_json PropRepair.e137.
Proof.
  eexists _, _, _. split; [vm_compute; reflexivity | ]. split; [vm_compute; reflexivity | ]. split; [vm_compute; reflexivity | ]. split; [vm_compute; reflexivity | ].
  split; [vm_compute; reflexivity | ]. intros E. vm_compute in E. discriminate E.
Qed.

(** ** C148: a second clean-up after saving and loading *)
Theorem C148_again : forall e0 ops e enum enum' e1 rem atts e2, plain_slots (e_data e0) -> plain_setup (e_data e0) -> history e0 ops e -> order_ok enum -> order_ok enum' ->
  clean_animation enum e = (e1, Ok (rem, atts)) -> (forall s, In s (d_slots (e_data e)) -> In (slot_name s) rem -> ~ used_slot (e_data e) s) ->
  mk_editor (editor_json e1) = Ok e2 -> no_null_time (e_data e1) \/ ver_ge (e_ver e1) SPINE_3_8 = true ->
  (analysable (e_data e1) -> exists e3, clean_animation enum' e2 = (e3, Ok ([], [])) /\ editor_json e3 = editor_json e1) /\
  (~ analysable (e_data e1) -> exists x, clean_animation enum' e2 = (e2, Err x)).
Proof. exact clean_saved_again. Qed.
Print Assumptions C148_again.
(** The document of C78: the clean-up removes a slot and two attachments; after saving and loading there is nothing left to remove. *)
Definition e148 : editor := fst (clean_animation in_order (ed PropEditor.jm)).
Example C148_ex : history (ed PropEditor.jm) [] (ed PropEditor.jm) /\ plain_slots (e_data (ed PropEditor.jm)) /\ plain_setup (e_data (ed PropEditor.jm)) /\
  clean_animation in_order (ed PropEditor.jm) = (e148, Ok (["ghost"], ["body2"; "g"])) /\ ver_ge (e_ver e148) SPINE_3_8 = true /\
  (forall s, In s (d_slots (e_data (ed PropEditor.jm))) -> In (slot_name s) ["ghost"] -> ~ used_slot (e_data (ed PropEditor.jm)) s) /\
  exists e2 e3, mk_editor (editor_json e148) = Ok e2 /\ clean_animation in_order e2 = (e3, Ok ([], [])) /\ editor_json e3 = editor_json e148 /\
    editor_json e148 <> editor_json (ed PropEditor.jm).
Proof.
  split; [constructor; apply loads_ok; vm_compute; reflexivity | ]. split; [apply plain_slotsb_ok; vm_compute; reflexivity | ]. split; [apply plain_setupb_ok; vm_compute; reflexivity | ].
  split; [vm_compute; reflexivity | ]. split; [vm_compute; reflexivity | ]. split; [exact (proj2 (proj2 PropEditor.C78_ex)) | ].
  eexists _, _. split; [vm_compute; reflexivity | ]. split; [vm_compute; reflexivity | ]. split; [vm_compute; reflexivity | ]. intros E. vm_compute in E. discriminate E.
Qed.
