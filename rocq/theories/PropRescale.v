(** Properties C154 and C155 (scaling, and calls in a row, before and after saving and loading). *)
From Verif Require Import PyBase PyNum Json Version Classes Graph SpineGraph DrawOrder SpecDraw SpecDoc AnimData Editor SpecAnim SpecEditor SpecFail SpecAny SpecReload SpecText SpecRescale
  EditorRun EditorReady ReloadAgain ReloadScale.
From Verif Require PropEditor.
Open Scope string_scope.

(** ** C154: scaling after saving and loading *)
Theorem C154_same : forall e0 ops e e' sx sy e1 r e1' r', any_calls e0 ops e -> mk_editor (editor_json e) = Ok e' ->
  no_null_time (e_data e) \/ ver_ge (e_ver e) SPINE_3_8 = true -> ones_are_floats (e_data e) ->
  scale_animation sx sy e = (e1, r) -> scale_animation sx sy e' = (e1', r') -> r' = r /\ editor_json e1' = editor_json e1.
Proof. exact scale_after_reload. Qed.
Print Assumptions C154_same.
Theorem C154_floats : forall e0 ops e e' fx fy e1 r e1' r', any_calls e0 ops e -> mk_editor (editor_json e) = Ok e' ->
  no_null_time (e_data e) \/ ver_ge (e_ver e) SPINE_3_8 = true -> scales_binary64 (e_data e) ->
  scale_animation (VFloat fx) (VFloat fy) e = (e1, r) -> scale_animation (VFloat fx) (VFloat fy) e' = (e1', r') -> r' = r /\ editor_json e1' = editor_json e1.
Proof. exact scale_floats_after_reload. Qed.
Print Assumptions C154_floats.

(** A scale of 1, an integer, comes back as 1.0.  Scaled by 2^53 + 1, the exports are different as numbers; scaled by 2^1024, only the loaded editor raises. *)
Definition j154 : val := json "3.8.99" [bone "root" [("scaleX", VInt 1)]] [slot "s" []] [] [skin_doc "default" []] [].
Theorem C154_refuted_number : exists e e' e1 e1', loaded e /\ mk_editor (editor_json e) = Ok e' /\ editor_json e' = editor_json e /\
  scale_animation (VInt (2 ^ 53 + 1)) (VInt 1) e = (e1, Ok tt) /\ scale_animation (VInt (2 ^ 53 + 1)) (VInt 1) e' = (e1', Ok tt) /\ py_eq (editor_json e1') (editor_json e1) = false.
Proof.
  exists (ed j154). eexists _, _, _. split; [apply loads_ok; vm_compute; reflexivity | ]. split; [vm_compute; reflexivity | ]. split; [vm_compute; reflexivity | ].
  split; [vm_compute; reflexivity | ]. split; [vm_compute; reflexivity | ]. vm_compute. reflexivity.
Qed.
Print Assumptions C154_refuted_number.
Theorem C154_refuted_raises : exists e e' e1 e1', loaded e /\ mk_editor (editor_json e) = Ok e' /\ editor_json e' = editor_json e /\
  scale_animation (VInt (2 ^ 1024)) (VInt 1) e = (e1, Ok tt) /\ scale_animation (VInt (2 ^ 1024)) (VInt 1) e' = (e1', Err EOverflow).
Proof.
  exists (ed j154). eexists _, _, _. split; [apply loads_ok; vm_compute; reflexivity | ]. split; [vm_compute; reflexivity | ]. split; [vm_compute; reflexivity | ].
  split; vm_compute; reflexivity.
Qed.
Print Assumptions C154_refuted_raises.

(** The document of C78, cleaned up: the scales are 1.0 or 3, and "arm" and the root are scaled. *)
Definition e154 : editor := after PropEditor.jm [EoClean in_order].
Example C154_ex : any_calls (ed PropEditor.jm) [EoClean in_order] e154 /\ ver_ge (e_ver e154) SPINE_3_8 = true /\ ones_are_floats (e_data e154) /\ scales_binary64 (e_data e154) /\
  exists e' e1 e1', mk_editor (editor_json e154) = Ok e' /\ scale_animation (VInt 2) (VFloat f_one) e154 = (e1, Ok tt) /\ scale_animation (VInt 2) (VFloat f_one) e' = (e1', Ok tt) /\
    editor_json e1' = editor_json e1 /\ editor_json e1 <> editor_json e154.
Proof.
  split; [apply history_calls; apply (runs_ok PropEditor.jm [EoClean in_order]); [repeat (apply Forall_cons || apply Forall_nil); first [exact in_order_ok | exact I] | vm_compute; reflexivity] | ].
  split; [vm_compute; reflexivity | ].
  assert (Sc : map (fun b => (oget b "scaleX", oget b "scaleY")) (d_bones (e_data e154)) = [(VFloat f_one, VFloat f_one); (VInt 3, VFloat f_one); (VFloat f_one, VFloat f_one)]) by (vm_compute; reflexivity).
  assert (Al : forall b k, In b (d_bones (e_data e154)) -> scale_attribute k -> oget b k = VFloat f_one \/ oget b k = VInt 3).
  { intros b k Hb Hk. apply (in_map (fun b => (oget b "scaleX", oget b "scaleY"))) in Hb. rewrite Sc in Hb. destruct Hk as [-> | ->]; cbn [In] in Hb;
      repeat (destruct Hb as [Hb | Hb]; [injection Hb as Hx Hy; rewrite <- ?Hx, <- ?Hy; auto | ]); destruct Hb. }
  split; [intros b k Hb Hk; destruct (Al b k Hb Hk) as [-> | ->]; [reflexivity | intros E; vm_compute in E; discriminate E] | ].
  split; [intros b k f Hb Hk E; destruct (Al b k Hb Hk) as [Q | Q]; rewrite Q in E; [injection E as <-; reflexivity | discriminate E] | ].
  eexists _, _, _. split; [vm_compute; reflexivity | ]. split; [vm_compute; reflexivity | ]. split; [vm_compute; reflexivity | ]. split; [vm_compute; reflexivity | ].
  intros E. vm_compute in E. discriminate E.
Qed.

(** ** C155: any number of safe erasings of animations and scalings after saving and loading *)
Theorem C155_calls : forall e0 ops e e' l e1 rs e1' rs', any_calls e0 ops e -> mk_editor (editor_json e) = Ok e' ->
  no_null_time (e_data e) \/ ver_ge (e_ver e) SPINE_3_8 = true -> ones_are_floats (e_data e) -> Forall (light_call (fun _ => True)) l ->
  run_calls e l = (e1, rs) -> run_calls e' l = (e1', rs') -> rs' = rs /\ editor_json e1' = editor_json e1.
Proof. exact calls_after_reload. Qed.
Print Assumptions C155_calls.
Theorem C155_floats : forall e0 ops e e' l e1 rs e1' rs', any_calls e0 ops e -> mk_editor (editor_json e) = Ok e' ->
  no_null_time (e_data e) \/ ver_ge (e_ver e) SPINE_3_8 = true -> scales_binary64 (e_data e) -> Forall (light_call (fun s => exists f, s = VFloat f)) l ->
  run_calls e l = (e1, rs) -> run_calls e' l = (e1', rs') -> rs' = rs /\ editor_json e1' = editor_json e1.
Proof. exact float_calls_after_reload. Qed.
Print Assumptions C155_floats.
(** e154 again: three calls, the second of which raises *)
Definition o155 : list eop := [EoScale (VInt 2) (VFloat f_one); EoEraseAnimations in_order ["none"; "walk"] true true; EoScale (VInt 3) (VInt 3)].
Definition e155 : editor := match mk_editor (editor_json e154) with Ok x => x | Err _ => e154 end.
Definition r155 : list (res unit) := [Ok tt; Err (EValue "Animations could not be found inside the spine file"); Ok tt].
Example C155_ex : Forall (light_call (fun _ => True)) o155 /\ mk_editor (editor_json e154) = Ok e155 /\
  snd (run_calls e154 o155) = r155 /\ snd (run_calls e155 o155) = r155 /\ editor_json (fst (run_calls e155 o155)) = editor_json (fst (run_calls e154 o155)) /\
  editor_json (fst (run_calls e154 o155)) <> editor_json e154.
Proof.
  split; [repeat (apply Forall_cons || apply Forall_nil); cbn [light_call]; auto | ]. split; [vm_compute; reflexivity | ]. split; [vm_compute; reflexivity | ].
  split; [vm_compute; reflexivity | ]. split; [vm_compute; reflexivity | ]. intros E. vm_compute in E. discriminate E.
Qed.
