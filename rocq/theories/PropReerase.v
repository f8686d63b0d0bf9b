(** Property C153 (erasing animations before and after saving and loading). *)
From Verif Require Import PyBase PyNum Json Version Classes Graph SpineGraph DrawOrder SpecDraw SpecDoc AnimData Editor SpecAnim SpecEditor SpecFail SpecAny SpecReload
  EditorRun EditorReady ReloadAgain ReloadErase.
From Verif Require PropEditor.
Open Scope string_scope.

(** ** C153: erasing animations in safe mode commutes with saving and loading, whether it works or raises *)
Theorem C153_commutes : forall e0 ops e e', any_calls e0 ops e -> mk_editor (editor_json e) = Ok e' -> forall ns enum, order_ok enum ->
  forall strict e1 r e1' r', estep e (EoEraseAnimations enum ns strict true) = (e1, r) -> estep e' (EoEraseAnimations enum ns strict true) = (e1', r') ->
  r' = r /\ mk_editor (editor_json e1) = Ok e1'.
Proof. exact erase_commutes. Qed.
Print Assumptions C153_commutes.
Theorem C153_export : forall e0 ops e e' enum ns strict e1 r e1' r', any_calls e0 ops e -> mk_editor (editor_json e) = Ok e' ->
  no_null_time (e_data e) \/ ver_ge (e_ver e) SPINE_3_8 = true -> order_ok enum ->
  estep e (EoEraseAnimations enum ns strict true) = (e1, r) -> estep e' (EoEraseAnimations enum ns strict true) = (e1', r') -> editor_json e1' = editor_json e1.
Proof. exact erase_export. Qed.
Print Assumptions C153_export.
(** Not in safe mode: as erasing, building the graph again and cleaning up *)
Theorem C153_clean : forall e0 ops e e' enum enum' enum1 ns strict e1 e2, any_calls e0 ops e -> mk_editor (editor_json e) = Ok e' ->
  no_null_time (e_data e) \/ ver_ge (e_ver e) SPINE_3_8 = true -> plain_slots (e_data e0) -> order_ok enum -> order_ok enum' ->
  estep e (EoEraseAnimations enum ns strict true) = (e1, Ok tt) -> estep e1 (EoEraseSkins enum1 [] true) = (e2, Ok tt) ->
  forall e3 rem atts e3' x, clean_animation enum e2 = (e3, Ok (rem, atts)) -> erase_animations enum' ns strict false e' = (e3', Ok x) -> editor_json e3' = editor_json e3.
Proof. exact erase_clean_export. Qed.
Print Assumptions C153_clean.

(** The document of C78, scaled and cleaned up: erasing "walk" and a name that does not exist raises in strict mode and
    erases "walk" all the same, in both editors; not in safe mode further attachments go. *)
Definition o153 : list eop := [EoScale (VInt 2) (VInt 2); EoClean in_order].
Definition e153 : editor := after PropEditor.jm o153.
Example C153_ex : any_calls (ed PropEditor.jm) (rev o153) e153 /\ plain_slots (e_data (ed PropEditor.jm)) /\ ver_ge (e_ver e153) SPINE_3_8 = true /\
  exists e' e1 e1' x, mk_editor (editor_json e153) = Ok e' /\ estep e153 (EoEraseAnimations in_order ["none"; "walk"] true true) = (e1, Err x) /\
    estep e' (EoEraseAnimations in_order ["none"; "walk"] true true) = (e1', Err x) /\ editor_json e1' = editor_json e1 /\ editor_json e1 <> editor_json e153 /\
  exists e2 e3 rem atts e3' y, estep e153 (EoEraseAnimations in_order ["walk"] true true) = (e1, Ok tt) /\ estep e1 (EoEraseSkins in_order [] true) = (e2, Ok tt) /\
    clean_animation in_order e2 = (e3, Ok (rem, atts)) /\ atts <> [] /\ erase_animations in_order ["walk"] true false e' = (e3', Ok y) /\ editor_json e3' = editor_json e3.
Proof.
  split; [apply history_calls; apply (runs_ok PropEditor.jm o153); [repeat (apply Forall_cons || apply Forall_nil); first [exact in_order_ok | exact I] | vm_compute; reflexivity] | ].
  split; [apply plain_slotsb_ok; vm_compute; reflexivity | ]. split; [vm_compute; reflexivity | ].
  eexists _, _, _, _. split; [vm_compute; reflexivity | ]. split; [vm_compute; reflexivity | ]. split; [vm_compute; reflexivity | ]. split; [vm_compute; reflexivity | ].
  split; [intros E; vm_compute in E; discriminate E | ].
  eexists _, _, _, _, _, _. split; [vm_compute; reflexivity | ]. split; [vm_compute; reflexivity | ]. split; [vm_compute; reflexivity | ]. split; [intros E; discriminate E | ].
  split; [vm_compute; reflexivity | ]. vm_compute. reflexivity.
Qed.
